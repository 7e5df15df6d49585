(** What it takes for a compiled function to stand for the interpreter, and for a backend to be sound. *)
From Verif Require Export EvmModel.

Section Spec.
  Context {rest gas finput finit fresult fdata host log ins tx txres : Type}.
  Variable R : @revm rest gas finput finit fresult fdata host log ins tx txres.
  Notation func := (@func rest gas finput host log).

  (** [site k]: the program counter at which the function continues when entered with resume index [k]. Entered there it does
      what the interpreter does from that program counter: same effects on the host, same logs, and
      - if a frame is to be called: the same request, gas, stack and memory, and a resume index for the place where the
        interpreter continues; the return data can only be left alone or dropped;
      - if execution ends: the same result, either put down as an action or meant by the result code. *)
  Definition follows (c : code) (sp : Z) (f : func) (site : nat -> option nat) : Prop :=
    forall k pc g ret q h b, site k = Some pc ->
      let '(a, it, h1, l1) := run_plain R (mkInterp c sp pc g ret None q) h in
      let '(res, e, h2, l2) := f (mkEcx c sp k g ret None q b) h in
      h2 = h1 /\ l2 = l1 /\
      match a with
      | NewFrame x => e_action e = Some (NewFrame x) /\ res <> ROutOfGas /\ e_gas e = i_gas it /\ e_rest e = i_rest it /\
                      e_ret e = i_ret it /\ (i_ret it = ret \/ i_ret it = []) /\ site (e_resume e) = Some (i_pc it)
      | Return r => match e_action e with
                    | Some a' => a' = Return r
                    | None => r_res r = res /\ r_out r = [] /\ r_gas r = (match res with ROutOfGas => spend_all R (e_gas e) | _ => e_gas e end)
                    end
      end.
  Definition faithful (c : code) (sp : Z) (f : func) : Prop := exists site, site 0%nat = Some 0%nat /\ follows c sp f site.

  (** revm's interpreter keeps the code and the spec, and hands its action over. *)
  Definition plain_ok : Prop := forall it h, let '(_, it', _, _) := run_plain R it h in i_code it' = i_code it /\ i_spec it' = i_spec it /\ i_action it' = None.

  (** The codes that occur; what [init_frame] runs is among them. *)
  Variable known : code -> Prop.
  Definition codes_known : Prop := forall insp sp n h i c g r d h' i', init_frame R insp sp n h i = Some (inl (c, g, r, d), h', i') -> known c.

  (** The backend answers with programs for the key asked for (property C27), and every program it gives out stands for the
      interpreter under its spec on the codes with its hash. *)
  Definition backend_ok (hash : code -> Z) (lookup : nat -> Z -> Z -> code -> @decision rest gas finput host log) : Prop :=
    forall n k sp c p, lookup n k sp c = Compiled p ->
      p_hash p = k /\ p_spec p = sp /\ forall c', known c' -> hash c' = p_hash p -> faithful c' (p_spec p) (p_func p).
End Spec.
