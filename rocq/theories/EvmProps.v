(** Property C51: wrapping revm's EVM in a [JitEvm] does not change what it does. *)
From Verif Require Import RevmSpec EvmModel EvmSpec EvmProof.

Section Statements.
  Context {rest gas finput finit fresult fdata host log ins tx txres : Type}.
  Variable R : @revm rest gas finput finit fresult fdata host log ins tx txres.
  Variable known : code -> Prop.
  Variable hash : code -> Z.
  Hypothesis PO : plain_ok R.
  Hypothesis CK : codes_known R known.

  (** The runtime's [JitEvm]: however it is used - transactions, replays, system calls, inspected or not, the spec, the
      backend, the inspector or the context changed in between - and whatever the backend answers (programs may appear,
      disappear or be replaced at any time, also while a frame that was looked up earlier waits for a call), every
      transaction has the same result as with revm's own EVM, and context and inspector end up the same, provided each
      program given out is for the key asked for and stands for the interpreter when entered anew or at a resume index
      it has itself given. Transactions that do not end do not end on either side. *)
  Theorem C51_runtime (lookup : nat -> Z -> Z -> code -> @decision rest gas finput host log) :
    backend_ok R known hash lookup -> forall fuel (l : list (@call host ins tx)) (w : @world rest gas finput fdata host ins), w_stack w = [] ->
    match live R hash lookup fuel l (new_jit w) w with
    | Some (_, w', results) => plain_live R fuel l w = Some (w', results)
    | None => plain_live R fuel l w = None
    end.
  Proof.
    intros BO fuel l w E0.
    assert (A : at_rest R known hash (new_jit w) w) by (split; [exact E0|apply empty_ok]).
    pose proof (live_sim R known hash PO CK lookup BO fuel l _ _ A) as H.
    destruct (live R hash lookup fuel l (new_jit w) w) as [[[j w'] rs]|]; destruct (plain_live R fuel l w) as [[w2 rs2]|]; try contradiction; [|reflexivity].
    destruct H as [-> ->]. reflexivity.
  Qed.

  (** The [JitEvm] of revmc-context, with a table of functions and a miss handler.
      Partial: only if the handler keeps to its answers (refuted below without this). *)
  Theorem C51_generic_partial (functions : Z -> option func) (on_miss : nat -> Z -> code -> option func) sp :
    (forall c f, known c -> functions (hash c) = Some f -> faithful R c sp f) ->
    (forall n c f, known c -> on_miss n (hash c) c = Some f -> faithful R c sp f) ->
    (exists chosen, forall n c, known c -> on_miss n (hash c) c = chosen (hash c)) ->
    forall fuel (insp : bool) t n (w : @world rest gas finput fdata host ins), w_spec w = sp -> w_stack w = [] ->
    match transact_c R hash functions on_miss fuel insp t n w with
    | Some (_, w', result) => plain_perform R fuel (if insp then CInspect t else CTransact t) w = Some (w', Some result) /\ w_stack w' = []
    | None => plain_perform R fuel (if insp then CInspect t else CTransact t) w = None
    end.
  Proof.
    intros FO MO [chosen CH] fuel insp t n w ES E0. pose proof (gen_sim R known hash PO CK functions on_miss sp FO MO chosen CH fuel insp t n w ES E0) as H.
    assert (E : plain_perform R fuel (if insp then CInspect t else CTransact t) w = plain_tx R fuel insp false (with_host w (set_tx R t (w_host w)))) by (destruct insp; reflexivity).
    rewrite E. destruct (transact_c R hash functions on_miss fuel insp t n w) as [[[j w'] r]|]; destruct (plain_tx R fuel insp false (with_host w (set_tx R t (w_host w)))) as [[w2 r2]|];
      try contradiction; [|reflexivity]. destruct H as (<- & <- & Z). auto.
  Qed.

  (** Without a miss handler ([JitEvm::new] of revmc-context) the restriction is met. *)
  Theorem C51_table (functions : Z -> option func) sp :
    (forall c f, known c -> functions (hash c) = Some f -> faithful R c sp f) ->
    forall fuel (insp : bool) t n (w : @world rest gas finput fdata host ins), w_spec w = sp -> w_stack w = [] ->
    match transact_c R hash functions (fun _ _ _ => None) fuel insp t n w with
    | Some (_, w', result) => plain_perform R fuel (if insp then CInspect t else CTransact t) w = Some (w', Some result) /\ w_stack w' = []
    | None => plain_perform R fuel (if insp then CInspect t else CTransact t) w = None
    end.
  Proof. intros FO. apply C51_generic_partial; [exact FO|discriminate|]. exists (fun _ => None). reflexivity. Qed.
  (** One call, from any interpreter state, also with an action left over from before: if the function follows the
      interpreter and the resume index stands for the interpreter's place, the call gives the interpreter's action,
      host and logs; if a frame is to be called, the two states afterwards agree but for the program counter, which is
      again a resume index for the interpreter's place, and no action is left over. *)
  Theorem C51_call (f : func) site (lg : bool) (it : @interp rest gas finput) h i pc :
    follows R (i_code it) (i_spec it) f site -> site (i_pc it) = Some pc ->
    let '(a, it', h', i') := call_with_interpreter R f (if lg then set_on_log else (fun e => e)) it h i in
    let '(a2, b, h2, l) := run_plain R (mkInterp (i_code it) (i_spec it) pc (i_gas it) (i_ret it) None (i_rest it)) h in
    a = a2 /\ h' = h2 /\ i' = (if lg then fold_left (fun i x => ins_log R x i) l i else i) /\
    match a with
    | NewFrame _ => i_code it' = i_code b /\ i_spec it' = i_spec b /\ i_gas it' = i_gas b /\ i_ret it' = i_ret b /\
                    i_rest it' = i_rest b /\ i_action it' = None /\ site (i_pc it') = Some (i_pc b)
    | Return _ => True
    end.
  Proof.
    intros F SK. specialize (F (i_pc it) pc (i_gas it) (i_ret it) (i_rest it) h lg SK).
    pose proof (PO (mkInterp (i_code it) (i_spec it) pc (i_gas it) (i_ret it) None (i_rest it)) h) as P.
    unfold call_with_interpreter. assert (CF : forall x : @interp rest gas finput, (if lg then set_on_log else (fun e => e)) (from_interpreter x) = mkEcx (i_code x) (i_spec x) (i_pc x) (i_gas x) (i_ret x) (i_action x) (i_rest x) lg) by (intros x; destruct lg; reflexivity).
    rewrite CF. cbn. destruct (run_plain R _ h) as [[[a2 b] h2] l]. destruct (f _ h) as [[[res e] h1] l1]. destruct F as (-> & -> & F). cbn in P. destruct P as (P1 & P2 & P3).
    destruct a2 as [x|r].
    - destruct F as (F1 & F2 & F3 & F4 & F5 & F6 & F7). rewrite F1. split; [reflexivity|]. split; [reflexivity|]. split; [reflexivity|].
      assert (OG : is_oog res = false) by (destruct res; congruence || reflexivity). rewrite OG. cbn.
      split; [congruence|]. split; [congruence|]. split; [exact F3|]. split; [|auto].
      rewrite F5. destruct F6 as [-> | ->]; [destruct (i_ret it); reflexivity|reflexivity].
    - split; [|split; [reflexivity|split; [reflexivity|]]].
      + destruct (e_action e) as [a'|]; [congruence|]. destruct F as (F1 & F2 & F3). destruct r as [r1 r2 r3]; cbn in *. subst. destruct res; reflexivity.
      + destruct (e_action e) as [a'|]; [rewrite F|]; exact Logic.I.
  Qed.

End Statements.
Print Assumptions C51_runtime.
Print Assumptions C51_generic_partial.
Print Assumptions C51_table.
Print Assumptions C51_call.

(** ** A contract that creates four contracts: PUSH0 x 3, CREATE, four times; then LOG0 and STOP.
    The interpreter here knows these instructions; the host counts creations, the inspector lists logs. *)
Definition four : code := [0x5f; 0x5f; 0x5f; 0xf0; 0x5f; 0x5f; 0x5f; 0xf0; 0x5f; 0x5f; 0x5f; 0xf0; 0x5f; 0x5f; 0x5f; 0xf0; 0xa0; 0x00]%Z.
Fixpoint toy_run (fuel : nat) (c : code) (sp : Z) (pc : nat) (g : Z) (ret st : list Z) (h : nat) (l : list nat) : @action Z unit * @interp (list Z) Z unit * nat * list nat :=
  let stop := (Return (mkRes RStop [] g), mkInterp c sp pc g ret None st, h, l) in
  match fuel with
  | O => stop
  | S fuel' =>
      match nth pc c 0%Z with
      | 0x5f%Z => toy_run fuel' c sp (S pc) (g - 2)%Z ret (0%Z :: st) h l
      | 0xf0%Z => (NewFrame tt, mkInterp c sp (S pc) (g - 32000)%Z [] None (skipn 3 st), h, l)
      | 0xa0%Z => toy_run fuel' c sp (S pc) (g - 375)%Z ret (skipn 2 st) h (l ++ [h])
      | _ => stop
      end
  end.
(** A frame at depth 1 (a creation) is counted and done at once. *)
Definition toy : @revm (list Z) Z unit nat Z unit nat nat (list nat) unit nat :=
  mkRevm (fun _ => 0%Z) (fun x i => i ++ [x]) (fun _ i => i) (fun _ _ r i => (r, i))
    (fun it h => toy_run 30 (i_code it) (i_spec it) (i_pc it) (i_gas it) (i_ret it) (i_rest it) h [])
    (fun _ r _ => (1%nat, r)) (fun _ h res => Some (0%Z, h))
    (fun _ _ n h i => Some (match n with O => inl (four, 1000000%Z, [], tt) | _ => inr 7%Z end, match n with O => h | _ => S h end, i))
    (fun r st g h => Some (r :: st, (g + 1)%Z, [], h))
    (fun _ h => h) (fun _ _ _ h => Some (0%nat, h)) (fun _ r h => (h, h)) (fun h => h).
(** The compiled contract: it resumes behind the [k]-th creation. *)
Definition four_site (k : nat) : option nat := if (k <=? 4)%nat then Some (4 * k)%nat else None.
Definition four_fn : @func (list Z) Z unit nat nat := fun e h =>
  match four_site (e_resume e) with
  | None => (ROther 1, e, h, []) (* "invalid `resume_at` value" *)
  | Some pc =>
      let '(a, it, h', l) := toy_run 30 four (e_spec e) pc (e_gas e) (e_ret e) (e_rest e) h [] in
      match a with
      | NewFrame _ => (RStop, mkEcx four (e_spec e) (i_pc it / 4) (i_gas it) (i_ret it) (Some a) (i_rest it) (e_onlog e), h', l)
      | Return r => (r_res r, mkEcx four (e_spec e) (e_resume e) (r_gas r) (i_ret it) None [] (e_onlog e), h', l)
      end
  end.
Lemma toy_keeps fuel : forall c sp pc g ret st h l, let '(_, it, _, _) := toy_run fuel c sp pc g ret st h l in i_code it = c /\ i_spec it = sp /\ i_action it = None.
Proof.
  induction fuel as [|fuel IH]; intros c sp pc g ret st h l; [cbn; auto|]. cbn [toy_run].
  repeat (match goal with |- context [match ?z with _ => _ end] => match type of z with Z => destruct z | positive => destruct z end end; try apply IH; cbn; auto).
Qed.
Lemma toy_plain_ok : plain_ok toy.
Proof. intros it h. exact (toy_keeps 30 (i_code it) (i_spec it) (i_pc it) (i_gas it) (i_ret it) (i_rest it) h []). Qed.
Definition is_four (c : code) : Prop := c = four.
Lemma toy_codes : codes_known toy is_four.
Proof. intros insp sp n h i c g r d h' i' H. cbn in H. destruct n; injection H; intros; subst; [reflexivity|discriminate]. Qed.
Lemma four_faithful sp : faithful toy four sp four_fn.
Proof.
  exists four_site. split; [reflexivity|]. intros k pc g ret q h b S. unfold four_site in S. destruct (Nat.leb_spec k 4) as [L|]; [|discriminate]. injection S as <-.
  destruct k as [|[|[|[|[|k]]]]]; [| | | | |lia]; cbn; repeat split; auto; discriminate.
Qed.
Definition toy_hash (c : code) : Z := Z.of_nat (length c).
Definition toy_world : @world (list Z) Z unit unit nat (list nat) := mkWorld 20 0%nat [] [].

(** The program disappears from the backend right after the first lookup; two transactions and a change of spec in between. *)
Definition flicker (n : nat) (k sp : Z) (c : code) : @decision (list Z) Z unit nat nat :=
  if Nat.even n then Compiled (mkProgram k sp four_fn) else Interpret.
Example C51_ex_ok : plain_ok toy /\ codes_known toy is_four /\ backend_ok toy is_four toy_hash flicker /\ w_stack toy_world = [].
Proof.
  split; [exact toy_plain_ok|]. split; [exact toy_codes|]. split; [|reflexivity]. intros n k sp c p H. unfold flicker in H.
  destruct (Nat.even n); [|discriminate]. injection H as <-. cbn. split; [reflexivity|]. split; [reflexivity|]. intros c' -> _. apply four_faithful.
Qed.
Definition toy_life : list (@call nat (list nat) unit) := [CTransact tt; CInspect tt; CSpec 21; CTransact tt; CBackend; CInspectSystem tt; CReplay].
Example C51_ex_run : match live toy toy_hash flicker 20 toy_life (new_jit toy_world) toy_world with
  | Some (j, w, rs) => j_count j = 3%nat /\ w_host w = 20%nat /\ w_ins w = [8; 16]%nat /\
                       rs = [Some (Some 4); Some (Some 8); None; Some (Some 12); None; Some (Some 16); Some (Some 20)]%nat
  | None => False
  end.
Proof. vm_compute. auto. Qed.

(** ** The generic [JitEvm] with a handler that compiles in the background: it has no function yet when the frame starts and has
    one when the frame is resumed. The program counter left by the interpreter behind the first creation is 4; the function
    takes it for its resume index, which is that behind the fourth creation: three creations are skipped. *)
Definition late (n : nat) (k : Z) (c : code) : option (@func (list Z) Z unit nat nat) := if (n =? 0)%nat then None else Some four_fn.
Theorem C51_generic_refuted :
  exists (R : @revm (list Z) Z unit nat Z unit nat nat (list nat) unit nat) known hash functions on_miss sp w fuel w1 r1 n w2 r2,
    plain_ok R /\ codes_known R known /\
    (forall c f, known c -> functions (hash c) = Some f -> faithful R c sp f) /\
    (forall n c f, known c -> on_miss n (hash c) c = Some f -> faithful R c sp f) /\
    w_spec w = sp /\ w_stack w = [] /\
    plain_perform R fuel (CTransact tt) w = Some (w1, Some (Some r1)) /\
    transact_c R hash functions on_miss fuel false tt 0 w = Some (n, w2, Some r2) /\ r1 <> r2.
Proof.
  exists toy, is_four, toy_hash, (fun _ => None), late, 20%Z, toy_world, 20%nat.
  exists (mkWorld 20 4%nat [] []), 4%nat, 2%nat, (mkWorld 20 1%nat [] []), 1%nat.
  split; [exact toy_plain_ok|]. split; [exact toy_codes|]. split; [discriminate|]. split.
  { intros n c f -> H. unfold late in H. destruct (n =? 0)%nat; [discriminate|]. injection H as <-. apply four_faithful. }
  split; [reflexivity|]. split; [reflexivity|]. split; [vm_compute; reflexivity|]. split; [vm_compute; reflexivity|discriminate].
Qed.
Print Assumptions C51_generic_refuted.

(** The hypotheses of the other two theorems are met by the same contract, which runs compiled. *)
Definition table_of (k : Z) : option (@func (list Z) Z unit nat nat) := if Z.eqb k (toy_hash four) then Some four_fn else None.
Example C51_table_ex : (forall c f, is_four c -> table_of (toy_hash c) = Some f -> faithful toy c 20 f) /\
  (exists n w, transact_c toy toy_hash table_of (fun _ _ _ => None) 20 true tt 0 toy_world = Some (n, w, Some 4%nat) /\ w_ins w = [4%nat]).
Proof.
  split; [intros c f -> H; injection H as <-; apply four_faithful|]. do 2 eexists. split; vm_compute; reflexivity.
Qed.
Example C51_generic_ex : (forall (n : nat) c f, is_four c -> (fun n k (c : code) => table_of k) n (toy_hash c) c = Some f -> faithful toy c 20 f) /\
  (exists chosen, forall (n : nat) c, is_four c -> (fun (n : nat) k (c : code) => table_of k) n (toy_hash c) c = chosen (toy_hash c)) /\
  (exists n w, transact_c toy toy_hash (fun _ => None) (fun _ k _ => table_of k) 20 false tt 0 toy_world = Some (n, w, Some 4%nat) /\ n = 5%nat).
Proof.
  split; [intros n c f -> H; injection H as <-; apply four_faithful|]. split; [exists table_of; reflexivity|]. do 2 eexists. split; vm_compute; reflexivity.
Qed.
