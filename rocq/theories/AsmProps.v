(** Properties of the assembler. *)
From Verif Require Import OpcodeModel OpcodeSpec AsmModel AsmSpec AsmProof.
From Coq Require Import ZifyBool ZifyNat.
Open Scope Z_scope.

(** C42 and C43 together, for every token list: what assembles is a program [p] of well-formed
    statements, and for every hardfork having the opcodes [p] uses, decoding the code yields, in order
    and without gaps, exactly the instruction each statement asks for. In particular a label
    reference pushes [addr label], which is the position of the first instruction after the label's
    definition (the last definition if there are several), or the end of the code. *)
Theorem C43_decodes_as_written tbl toks code fuel :
  pushes_active tbl -> Forall token_ok toks ->
  33 * Z.of_nat (length toks) < 2 ^ 64 -> (8 * length toks < fuel)%nat ->
  assemble fuel toks = AOk code ->
  exists p, toks = program_tokens p /\ Forall stmt_wf p /\
    (Forall (enabled tbl) p ->
     exists its addr, iterate tbl code = Some its /\ aligned addr p its 0 (length code) /\
       addresses p its (length code) addr).
Proof. exact (assemble_ok tbl toks code fuel). Qed.
Print Assumptions C43_decodes_as_written.

(** C42, termination: whatever the tokens, the layout loop ends within eight rounds per statement
    and no [unwrap] fails. *)
Theorem C42_layout_terminates toks fuel : Forall token_ok toks ->
  33 * Z.of_nat (length toks) < 2 ^ 64 -> (8 * length toks < fuel)%nat ->
  (exists code, assemble fuel toks = AOk code) \/ assemble fuel toks = AErr.
Proof. exact (assemble_total toks fuel). Qed.
Print Assumptions C42_layout_terminates.

(** C42, labels: in an assembled program, a PUSH or PUSHn of a label is decoded as a PUSH
    of that label's address, and its operand has room for it. *)
Theorem C42_label_addresses tbl p code fuel :
  pushes_active tbl -> Forall token_ok (program_tokens p) -> Forall (enabled tbl) p ->
  Forall stmt_wf p ->
  33 * Z.of_nat (length (program_tokens p)) < 2 ^ 64 -> (8 * length (program_tokens p) < fuel)%nat ->
  assemble fuel (program_tokens p) = AOk code ->
  exists its, iterate tbl code = Some its /\
    forall k l s, nth_error p k = Some s -> (s = SPush (Lab l) \/ exists op, s = SPushN op (Lab l)) ->
      exists d o pc, defines p d l /\
        nth_error its (count_insts (firstn k p)) = Some (pc, o) /\
        is_push o (Z.of_nat (address its (length code) (count_insts (firstn d p)))).
Proof. exact (label_addresses tbl p code fuel). Qed.
Print Assumptions C42_label_addresses.

(** C42, no needless refusal: a program whose operands are in range and whose labels are defined is
    assembled; in particular every [PUSH label] gets a width that is large enough. *)
Theorem C42_accepts p fuel : Forall token_ok (program_tokens p) -> Forall stmt_wf p ->
  33 * Z.of_nat (length p) < 2 ^ 64 -> (8 * length p < fuel)%nat ->
  Forall (acceptable p) p -> exists code, assemble fuel (program_tokens p) = AOk code.
Proof. exact (assemble_accepts p fuel). Qed.
Print Assumptions C42_accepts.

(** A program with a forward label whose address needs two bytes, a backward label, a repeated
    label, DUP past 16 and EXCHANGE. *)
Definition asm_demo : list stmt :=
  [SLabel 0; SOp 0x5b; SPush (Lab 1); SOp 0x56] ++ repeat (SPush (Num 0x010203)) 70 ++
  [SLabel 1; SOp 0x5b; SPushN 0x67 (Lab 0); SDup 20; SSwap 3; SDupN 17; SExchange 2 5; SPush (Lab 2); SLabel 2].
Definition all_on : optable := fun _ => true.

Example asm_demo_meets : pushes_active all_on /\ Forall token_ok (program_tokens asm_demo) /\
  Forall stmt_wf asm_demo /\ Forall (enabled all_on) asm_demo /\ Forall (acceptable asm_demo) asm_demo.
Proof.
  assert (T : forall {A} (P : A -> Prop) (b : A -> bool) l, (forall x, b x = true -> P x) -> forallb b l = true -> Forall P l).
  { intros A P b l Hb H. apply Forall_forall. intros x Hx. apply Hb. rewrite forallb_forall in H. auto. }
  split; [intros b _; reflexivity|]. split; [|split; [|split]].
  - apply (T _ _ (fun t => match t with TNumber n => (0 <=? n) && (n <? 2 ^ 256) | TIdent (WOp o) => (0 <=? o) && (o <? 256) | _ => true end));
      [|vm_compute; reflexivity].
    intros [?|[]|?|?|] H; cbn -[Z.pow] in *; auto; unfold is_byte; lia.
  - apply (T _ _ (fun s => match s with SOp o => negb ((96 <=? o) && (o <=? 127)) && negb ((230 <=? o) && (o <=? 232)) | SPushN o _ => (96 <=? o) && (o <=? 127) | _ => true end));
      [|vm_compute; reflexivity].
    intros [] H; cbn in *; auto; lia.
  - apply (T _ _ (fun _ => true)); [|vm_compute; reflexivity]. intros [] _; cbn; auto.
  - assert (L : forall l, (l <= 2)%nat -> In (SLabel l) asm_demo).
    { assert (E : forall l, existsb (fun s => match s with SLabel l' => (l' =? l)%nat | _ => false end) asm_demo = true ->
        In (SLabel l) asm_demo).
      { intros l H. apply existsb_exists in H as ([] & Hin & Q); try discriminate.
        apply Nat.eqb_eq in Q. subst. exact Hin. }
      intros [|[|[|l]]] Hl; try lia; apply E; vm_compute; reflexivity. }
    apply (T _ _ (fun s => match s with
      | SPushN o (Num v) => v <? 256 ^ (o - 95) | SPushN o (Lab l) => (103 <=? o) && (l <=? 2)%nat
      | SPush (Lab l) => (l <=? 2)%nat | SDup n | SSwap n => (1 <=? n) && (n <=? 235)
      | SDupN n | SSwapN n => (17 <=? n) && (n <=? 235)
      | SExchange n m => (1 <=? n) && (n <? m) && (m <=? 16) && (n + m <=? 30) | _ => true end)); [|vm_compute; reflexivity].
    intros [| |o [v|l]|[v|l]|n|n|n|n|n m] H; cbn [acceptable] in *; auto;
      try (apply L; lia); try lia; try (split; [lia|apply L; lia]).
Qed.

(** The first label reference is PUSH2 0x011d and the last one (to the end) needs two bytes too. *)
Example asm_demo_code :
  match assemble 1000 (program_tokens asm_demo) with
  | AOk code => firstn 6 code = [0x5b; 0x61; 0x01; 0x1d; 0x56; 0x62] /\ nth 285 code 0 = 0x5b /\
      length code = 305%nat /\ skipn 302 code = [0x61; 0x01; 0x31]
  | _ => False
  end.
Proof. vm_compute. auto. Qed.
