(** Properties C11-C15: dead code, jump resolution, constants, joins, termination of the analysis. *)
From Verif Require Import ProgramModel JumpModel OpcodeSpec FlowSpec CfgProof ArithSpec BlockProof LocalProof GlobalProof FixpointProof ProgramProof AnalysisProof DemoTables.
From Coq Require Import ZifyBool.
Open Scope Z_scope.

(** A bytecode as the compiler accepts it, with its instruction list and analysis environment.
    [key] is the numbering of constants (injective, C04). *)
Definition loaded info stack_io key lim code env prog : Prop :=
  tables_ok info stack_io /\ Forall is_byte code /\ Z.of_nat (length code) < 2 ^ 31 /\
  (forall a b : Z, key a = key b -> a = b) /\
  load info stack_io key lim code = Some (env, prog).

(** "Shallow": whenever the global fixpoint converges, no execution of the contract puts more than 64
    items on the stack (the depth to which abstract stacks are kept). *)
Definition shallow {Y} env prog (sem : nat -> list Z -> Y -> option (list Z * Y)) (y0 : Y) : Prop :=
  converges env (analyze_local env (initial prog)) ->
  forall i st y, reach prog (a_const env) (a_dest env) sem y0 i st y -> (length st <= 64)%nat.

Section Loaded.
  Context {Y : Type} (info : Z -> opinfo) (stack_io : Z -> Z * Z) (key : Z -> Z) (lim : Z) (code : list Z)
          (env : aenv) (prog : list idata) (sem : nat -> list Z -> Y -> option (list Z * Y)) (y0 : Y).
  Hypothesis L : loaded info stack_io key lim code env prog.

  Lemma loaded_facts : prog_ok prog (a_const env) (a_dest env) /\ raw prog /\ (forall x y, a_key env x = a_key env y -> x = y) /\
    (forall v j, a_dest env v = Some j <-> (exists d, nth_error prog j = Some d /\ d_op d = 0x5b) /\ a_const env j = v) /\
    (forall j d, nth_error prog j = Some d -> d_op d = 0x5b -> a_const env j < 2 ^ 64 - 1) /\
    (forall i d, nth_error prog i = Some d -> d_op d = 0x57 -> (S i < length prog)%nat).
  Proof.
    destruct L as (TK & B & LEN & KEY & LD). unfold load in LD. destruct (parse (active_of info) stack_io code) as [st|] eqn:P; [|discriminate].
    apply (f_equal (fun o => match o with Some x => x | None => (env, prog) end)) in LD. cbn match in LD. apply pair_equal_spec in LD as [<- <-].
    split; [exact (load_ok info stack_io code key lim TK B LEN st P)|]. split; [apply load_raw|]. split; [exact KEY|].
    split; [intros v j; exact (load_dests info stack_io code key lim TK B LEN st P v j)|].
    split; [intros j d; exact (load_pcs info stack_io code key lim B LEN st P j d)|].
    intros i d. eapply load_next; eauto.
  Qed.

  Hypothesis SO : sem_ok prog (a_const env) sem (a_codelen env).
  Notation step := (evm_step prog (a_const env) (a_dest env) sem).
  Notation R := (reach prog (a_const env) (a_dest env) sem y0).

  Lemma sound_analysis p : shallow env prog sem y0 -> analyze env prog = Some p ->
    cfg_ok prog (a_const env) (a_dest env) sem y0 p /\ good prog env sem y0 (b_snaps p).
  Proof.
    intros SH H. destruct loaded_facts as (PO & RAW & KEY & _). eapply global_ok; eauto.
  Qed.
  Lemma sound_local p : analyze_local env (initial prog) = Some p ->
    cfg_ok prog (a_const env) (a_dest env) sem y0 p /\ good prog env sem y0 (b_snaps p).
  Proof.
    intros H. destruct loaded_facts as (PO & RAW & KEY & _). eapply local_ok; eauto.
  Qed.
  Lemma sound_jumps p i st y d t st1 : cfg_ok prog (a_const env) (a_dest env) sem y0 p ->
    R i st y -> nth_error (b_insts p) i = Some d -> st = t :: st1 ->
    (d_op d = 0x56 \/ (d_op d = 0x57 /\ st1 <> [])) ->
    lower_jump env p i d t (hd 0 st1) = Some match step i st y with Some (j, _, _) => JGoto j | None => JInvalidJump end.
  Proof.
    intros OK HR Hn Est Hop. destruct loaded_facts as (PO & RAW & KEY & DS & PC & NX).
    pose proof (reach_words prog env sem y0 PO SO i st y HR) as W0.
    eapply lower_jump_ok; eauto.
    - rewrite Est in W0. inversion W0; assumption.
    - eapply reach_len; eauto.
  Qed.

  (** C11. In a shallow contract no execution reaches an instruction that the analysis marked dead.
      Partial: without [shallow] the claim is refuted below. *)
  Theorem C11_dead_code_partial p i st y d : shallow env prog sem y0 -> analyze env prog = Some p ->
    R i st y -> nth_error (b_insts p) i = Some d -> is_dead d = false.
  Proof. intros SH H HR Hn. destruct (sound_analysis p SH H) as [OK _]. exact (pr_live _ _ _ _ _ _ (co_pre _ _ _ _ _ _ OK) i st y d HR Hn). Qed.

  (** C11, for every contract and execution, after the block-local analysis. *)
  Theorem C11_dead_code_local p i st y d : analyze_local env (initial prog) = Some p ->
    R i st y -> nth_error (b_insts p) i = Some d -> is_dead d = false.
  Proof. intros H HR Hn. destruct (sound_local p H) as [OK _]. exact (pr_live _ _ _ _ _ _ (co_pre _ _ _ _ _ _ OK) i st y d HR Hn). Qed.

  (** C12. In a shallow contract the code emitted for any executed JUMP or JUMPI continues at the
      instruction the EVM continues at, and in the invalid-jump block iff the EVM fails. *)
  Theorem C12_jumps_partial p i st y d t st1 : shallow env prog sem y0 -> analyze env prog = Some p ->
    R i st y -> nth_error (b_insts p) i = Some d -> st = t :: st1 ->
    (d_op d = 0x56 \/ (d_op d = 0x57 /\ st1 <> [])) ->
    lower_jump env p i d t (hd 0 st1) = Some match step i st y with Some (j, _, _) => JGoto j | None => JInvalidJump end.
  Proof. intros SH H. destruct (sound_analysis p SH H) as [OK _]. apply sound_jumps. exact OK. Qed.

  Theorem C12_jumps_local p i st y d t st1 : analyze_local env (initial prog) = Some p ->
    R i st y -> nth_error (b_insts p) i = Some d -> st = t :: st1 ->
    (d_op d = 0x56 \/ (d_op d = 0x57 /\ st1 <> [])) ->
    lower_jump env p i d t (hd 0 st1) = Some match step i st y with Some (j, _, _) => JGoto j | None => JInvalidJump end.
  Proof. intros H. destruct (sound_local p H) as [OK _]. apply sound_jumps. exact OK. Qed.

  (** C13. In a shallow contract a constant claimed for an operand or for the result of an
      instruction is the value of that operand or result in every execution. *)
  Theorem C13_operand_partial p i st y depth c : shallow env prog sem y0 -> analyze env prog = Some p ->
    R i st y -> (i < length prog)%nat -> const_operand p i depth = Some c -> (depth < length st)%nat -> nth_error st depth = Some c.
  Proof. intros SH H HR Hi Hc Hl. destruct (sound_analysis p SH H) as [_ G]. exact (good_operand prog env sem y0 (b_snaps p) p i st y depth c G HR Hi eq_refl Hc Hl). Qed.

  Theorem C13_output_partial p i st y j st' y' c : shallow env prog sem y0 -> analyze env prog = Some p ->
    R i st y -> const_output p i = Some c -> step i st y = Some (j, st', y') -> st' <> [] -> hd_error st' = Some c.
  Proof. intros SH H HR Hc Hs Hn. destruct (sound_analysis p SH H) as [_ G]. exact (good_output prog env sem y0 (b_snaps p) p i st y j st' y' c G HR eq_refl Hc Hs Hn). Qed.

  Theorem C13_operand_local p i st y depth c : analyze_local env (initial prog) = Some p ->
    R i st y -> (i < length prog)%nat -> const_operand p i depth = Some c -> (depth < length st)%nat -> nth_error st depth = Some c.
  Proof. intros H HR Hi Hc Hl. destruct (sound_local p H) as [_ G]. exact (good_operand prog env sem y0 (b_snaps p) p i st y depth c G HR Hi eq_refl Hc Hl). Qed.

  Theorem C13_output_local p i st y j st' y' c : analyze_local env (initial prog) = Some p ->
    R i st y -> const_output p i = Some c -> step i st y = Some (j, st', y') -> st' <> [] -> hd_error st' = Some c.
  Proof. intros H HR Hc Hs Hn. destruct (sound_local p H) as [_ G]. exact (good_output prog env sem y0 (b_snaps p) p i st y j st' y' c G HR eq_refl Hc Hs Hn). Qed.
End Loaded.

Print Assumptions C11_dead_code_partial.
Print Assumptions C11_dead_code_local.
Print Assumptions C12_jumps_partial.
Print Assumptions C12_jumps_local.
Print Assumptions C13_operand_partial.
Print Assumptions C13_output_partial.
Print Assumptions C13_operand_local.
Print Assumptions C13_output_local.

(** ** A contract deeper than 64 items for which the analysis is wrong. *)
(** 70 zeros; a branch on CALLDATASIZE; one side pushes T1 = 222 and jumps to the shared block at 220,
    the other first pops 65 of the zeros, then pushes T2 = 224 and jumps there; the shared block jumps
    to whatever is on top. *)
Definition w_code : list Z :=
  flat_map (fun _ => [0x60; 0]) (seq 0 70)      (* 0..139 *)
  ++ [0x36; 0x60; 149; 0x57]                    (* 140: CALLDATASIZE; PUSH1 149; JUMPI *)
  ++ [0x60; 222; 0x60; 220; 0x56]               (* 144: PUSH1 222; PUSH1 220; JUMP *)
  ++ [0x5b] ++ repeat 0x50 65                   (* 149: JUMPDEST; POP x 65 *)
  ++ [0x60; 224; 0x60; 220; 0x56]               (* 215: PUSH1 224; PUSH1 220; JUMP *)
  ++ [0x5b; 0x56]                               (* 220: JUMPDEST; JUMP *)
  ++ [0x5b; 0x00]                               (* 222: JUMPDEST; STOP *)
  ++ [0x5b; 0x00].                              (* 224: JUMPDEST; STOP *)

Definition no_env : aenv := mkEnv (fun _ => 0) (fun _ => None) (fun v => v) 0 0.
Definition io_check (prog : list idata) : bool :=
  forallb (fun d => if d_op d =? 0x36 then (fst (d_io d) =? 0) && (snd (d_io d) =? 1)
                    else if d_op d =? 0x5b then (fst (d_io d) =? 0) && (snd (d_io d) =? 0) else true) prog.
Lemma io_check_ok prog const len : io_check prog = true -> sem_ok prog const (demo_sem prog) len.
Proof.
  unfold io_check. intros A. rewrite forallb_forall in A.
  apply demo_sem_ok; intros i d H E; specialize (A d (nth_error_In _ _ H)); rewrite E in A; cbn in A; destruct (d_io d) as [a b]; cbn in A; f_equal; lia.
Qed.
Lemma bytes_check code : forallb (fun x => (0 <=? x) && (x <? 256)) code = true -> Forall is_byte code.
Proof. intros A. apply Forall_forall. intros x Hx. rewrite forallb_forall in A. specialize (A x Hx). unfold is_byte. lia. Qed.
Definition jnext_eqb (a b : option jnext) : bool :=
  match a, b with
  | Some (JGoto i), Some (JGoto j) => (i =? j)%nat
  | Some JInvalidJump, Some JInvalidJump | Some JUnreachable, Some JUnreachable => true
  | _, _ => false
  end.
Lemma jnext_eqb_eq a b : jnext_eqb a b = true -> a = b.
Proof. destruct a as [[i| |]|], b as [[j| |]|]; cbn; intros H; try discriminate; try reflexivity. apply Nat.eqb_eq in H. congruence. Qed.
Definition state_eqb (a : option (nat * list Z * Z)) (i : nat) (st : list Z) (y : Z) : bool :=
  match a with Some (j, st', y') => (i =? j)%nat && list_eqb st' st && (y =? y') | None => false end.

(** Executed with calldata, the contract reaches the JUMP at index 146 with 224 on top and goes on to
    index 149; the compiler claims: 146's operand is 222, 146 jumps to 147, 149 is dead. *)
Lemma w_check :
  match load demo_info demo_io (fun v => v) 1000 w_code with
  | Some (env, prog) =>
      match analyze env prog with
      | Some p =>
          io_check prog
          && state_eqb (run prog (a_const env) (a_dest env) (demo_sem prog) 143 (0%nat, [], 1)) 146 (224 :: repeat 0 5) 1
          && state_eqb (evm_step prog (a_const env) (a_dest env) (demo_sem prog) 146 (224 :: repeat 0 5) 1) 149 (repeat 0 5) 1
          && match const_operand p 146 0 with Some c => c =? 222 | None => false end
          && match nth_error (b_insts p) 146 with
             | Some d => (d_op d =? 0x56) && jnext_eqb (lower_jump env p 146 d 224 0) (Some (JGoto 147))
             | None => false
             end
          && match nth_error (b_insts p) 149 with Some d => is_dead d | None => false end
      | None => false
      end
  | None => false
  end = true.
Proof. vm_compute. reflexivity. Qed.

Lemma list_eqb_eq a : forall b, list_eqb a b = true -> a = b.
Proof. induction a as [|x a IH]; intros [|y b] H; try discriminate; [reflexivity|]. cbn in H. apply andb_true_iff in H as [H1 H2]. f_equal; [lia|auto]. Qed.
Lemma state_eqb_eq a i st y : state_eqb a i st y = true -> a = Some (i, st, y).
Proof.
  unfold state_eqb. destruct a as [[[j st'] y']|]; [|discriminate]. intros H. apply andb_true_iff in H as [H H3]. apply andb_true_iff in H as [H1 H2].
  apply Nat.eqb_eq in H1. apply list_eqb_eq in H2. subst. repeat f_equal. lia.
Qed.

Lemma w_facts : exists env prog p d d',
  loaded demo_info demo_io (fun v => v) 1000 w_code env prog /\
  sem_ok prog (a_const env) (demo_sem prog) (a_codelen env) /\ analyze env prog = Some p /\
  reach prog (a_const env) (a_dest env) (demo_sem prog) 1 146 (224 :: repeat 0 5) 1 /\
  evm_step prog (a_const env) (a_dest env) (demo_sem prog) 146 (224 :: repeat 0 5) 1 = Some (149%nat, repeat 0 5, 1) /\
  const_operand p 146 0 = Some 222 /\
  nth_error (b_insts p) 146 = Some d /\ d_op d = 0x56 /\ lower_jump env p 146 d 224 0 = Some (JGoto 147) /\
  nth_error (b_insts p) 149 = Some d' /\ is_dead d' = true.
Proof.
  pose proof w_check as H. destruct (load demo_info demo_io (fun v => v) 1000 w_code) as [[env prog]|] eqn:EL; [|discriminate].
  destruct (analyze env prog) as [p|] eqn:EA; [|discriminate].
  repeat (apply andb_true_iff in H as [H ?]).
  exists env, prog, p.
  destruct (nth_error (b_insts p) 146) as [d|] eqn:Ed; [|discriminate].
  destruct (nth_error (b_insts p) 149) as [d'|] eqn:Ed'; [|discriminate]. exists d, d'.
  match goal with X : _ && jnext_eqb _ _ = true |- _ => apply andb_true_iff in X as [Ho Hl] end.
  repeat match goal with X : state_eqb _ _ _ _ = true |- _ => apply state_eqb_eq in X end.
  split; [|split; [apply io_check_ok; assumption|]].
  { split; [exact demo_tables_ok|]. split; [apply bytes_check; vm_compute; reflexivity|]. split; [vm_compute; reflexivity|]. split; [auto|exact EL]. }
  split; [exact EA|]. split; [eapply run_from_start; eassumption|]. split; [assumption|].
  split; [destruct (const_operand p 146 0); [f_equal; lia|discriminate]|].
  split; [reflexivity|]. split; [lia|]. split; [|split; [reflexivity|assumption]].
  apply jnext_eqb_eq. exact Hl.
Qed.

Theorem C11_dead_code_refuted :
  exists info stack_io key lim code env prog (sem : nat -> list Z -> Z -> option (list Z * Z)) y0 p i st y d,
    loaded info stack_io key lim code env prog /\ sem_ok prog (a_const env) sem (a_codelen env) /\
    analyze env prog = Some p /\ reach prog (a_const env) (a_dest env) sem y0 i st y /\
    nth_error (b_insts p) i = Some d /\ is_dead d = true.
Proof.
  destruct w_facts as (env & prog & p & d & d' & HL & HS & HA & HR & Hst & _ & _ & _ & _ & Hd & Hdead).
  exists demo_info, demo_io, (fun v => v), 1000, w_code, env, prog, (demo_sem prog), 1, p, 149%nat, (repeat 0 5), 1, d'.
  split; [exact HL|]. split; [exact HS|]. split; [exact HA|]. split; [eapply reach_step; eauto|]. auto.
Qed.
Print Assumptions C11_dead_code_refuted.

Theorem C12_jumps_refuted :
  exists info stack_io key lim code env prog (sem : nat -> list Z -> Z -> option (list Z * Z)) y0 p i t st1 y d j k st' y',
    loaded info stack_io key lim code env prog /\ sem_ok prog (a_const env) sem (a_codelen env) /\
    analyze env prog = Some p /\ reach prog (a_const env) (a_dest env) sem y0 i (t :: st1) y /\
    nth_error (b_insts p) i = Some d /\ d_op d = 0x56 /\
    evm_step prog (a_const env) (a_dest env) sem i (t :: st1) y = Some (j, st', y') /\
    lower_jump env p i d t (hd 0 st1) = Some (JGoto k) /\ k <> j.
Proof.
  destruct w_facts as (env & prog & p & d & d' & HL & HS & HA & HR & Hst & _ & Hd & Ho & Hl & _).
  exists demo_info, demo_io, (fun v => v), 1000, w_code, env, prog, (demo_sem prog), 1, p, 146%nat, 224, (repeat 0 5), 1, d, 149%nat, 147%nat, (repeat 0 5), 1.
  split; [exact HL|]. split; [exact HS|]. split; [exact HA|]. split; [exact HR|]. split; [exact Hd|]. split; [exact Ho|]. split; [exact Hst|].
  split; [exact Hl|discriminate].
Qed.
Print Assumptions C12_jumps_refuted.

Theorem C13_operand_refuted :
  exists info stack_io key lim code env prog (sem : nat -> list Z -> Z -> option (list Z * Z)) y0 p i t st1 y c,
    loaded info stack_io key lim code env prog /\ sem_ok prog (a_const env) sem (a_codelen env) /\
    analyze env prog = Some p /\ reach prog (a_const env) (a_dest env) sem y0 i (t :: st1) y /\
    const_operand p i 0 = Some c /\ c <> t.
Proof.
  destruct w_facts as (env & prog & p & d & d' & HL & HS & HA & HR & Hst & Hc & _).
  exists demo_info, demo_io, (fun v => v), 1000, w_code, env, prog, (demo_sem prog), 1, p, 146%nat, 224, (repeat 0 5), 1, 222.
  split; [exact HL|]. split; [exact HS|]. split; [exact HA|]. split; [exact HR|]. split; [exact Hc|discriminate].
Qed.
Print Assumptions C13_operand_refuted.

(** ** The hypotheses of the partial theorems are met. *)
(** A subroutine at pc 13 called from two places with return addresses 5 and 11; its return jump
    becomes a switch over both; pcs 15 and 16 are dead. *)
Definition s_code : list Z :=
  [0x60; 5; 0x60; 13; 0x56] ++ [0x5b; 0x60; 11; 0x60; 13; 0x56] ++ [0x5b; 0x00] ++ [0x5b; 0x56] ++ [0x5b; 0x00].
Example C11_C13_ex :
  match load demo_info demo_io (fun v => v) 1000 s_code with
  | Some (env, prog) =>
      match analyze env prog with
      | Some p =>
          io_check prog && depth_check prog (a_const env) (a_dest env) (demo_sem prog) 64 20 (0%nat, [], 0)
          && state_eqb (run prog (a_const env) (a_dest env) (demo_sem prog) 10 (0%nat, [], 0)) 10 [11] 0
          && match nth_error (b_insts p) 10, b_multi p 10 with
             | Some d, Some ts => f_multi (d_flags d) && list_eqb (map Z.of_nat ts) [3; 7]
                                  && jnext_eqb (lower_jump env p 10 d 11 0) (Some (JGoto 7))
             | _, _ => false
             end
          && match const_operand p 6 0 with Some c => c =? 13 | None => false end
          && match const_output p 4 with Some c => c =? 11 | None => false end
          && list_eqb (map (fun d => if is_dead d then 1 else 0) (b_insts p)) [0;0;0;0;0;0;0;0;0;0;0;1;1]
      | None => false
      end
  | None => false
  end = true.
Proof. vm_compute. reflexivity. Qed.
Example C11_C13_ex_hyp : exists env prog, loaded demo_info demo_io (fun v => v) 1000 s_code env prog /\
  sem_ok prog (a_const env) (demo_sem prog) (a_codelen env) /\ shallow env prog (demo_sem prog) 0.
Proof.
  pose proof C11_C13_ex as H. destruct (load demo_info demo_io (fun v => v) 1000 s_code) as [[env prog]|] eqn:EL; [|discriminate].
  destruct (analyze env prog) as [p|] eqn:EA; [|discriminate].
  repeat (apply andb_true_iff in H as [H ?]). exists env, prog.
  split; [|split; [apply io_check_ok; assumption|]].
  { split; [exact demo_tables_ok|]. split; [apply bytes_check; vm_compute; reflexivity|]. split; [vm_compute; reflexivity|]. split; [auto|exact EL]. }
  intros _. eapply depth_check_reach. eassumption.
Qed.

(** ** C14. *)
(** Concrete values an abstract value stands for, and the abstract stacks describing a concrete one:
    slot by slot from the top, as far as both go. *)
Definition stands_for (a : aval) (v : Z) : Prop :=
  match a with AConst c => v = c | ASet l => In v l | ATop => True end.
Definition describes (A : list aval) (st : list Z) : Prop :=
  forall k a v, nth_error A k = Some a -> nth_error st k = Some v -> stands_for a v.

Theorem C14_value_join env a b v : (forall x y, a_key env x = a_key env y -> x = y) ->
  stands_for a v \/ stands_for b v -> stands_for (vjoin env a b) v.
Proof. intros KEY. exact (vjoin_upper env KEY a b v). Qed.
Print Assumptions C14_value_join.

(** The join adds nothing: exact unless one side is already unknown ([ASet []] does not occur). *)
Theorem C14_value_join_exact env a b v :
  a <> ATop -> b <> ATop -> a <> ASet [] -> b <> ASet [] ->
  stands_for (vjoin env a b) v -> stands_for a v \/ stands_for b v.
Proof. exact (vjoin_exact env a b v). Qed.
Print Assumptions C14_value_join_exact.

(** Stack join at a block entry: the new state describes every stack the incoming one describes and
    every stack the old one described, keeps min(64, depth) slots of each, and "unchanged" is only
    reported if the state really is the old one. *)
Theorem C14_stack_join env old incoming new changed : (forall x y, a_key env x = a_key env y -> x = y) ->
  sjoin env old incoming = (new, changed) ->
  exists A, new = Some A /\
    (forall st, describes incoming st -> describes A st) /\ (Nat.min (length incoming) 64 <= length A)%nat /\
    (forall B, old = Some B -> (forall st, describes B st -> describes A st) /\ (Nat.min (length B) 64 <= length A)%nat /\
                               (changed = false -> A = B)).
Proof.
  intros KEY H. destruct (sjoin_spec env KEY _ _ _ _ H) as (A & -> & [C1 C2] & _ & Old). exists A.
  split; [reflexivity|]. split; [exact C1|]. split; [exact C2|]. intros B EB. destruct (Old B EB) as [O1 O2].
  destruct (O1 B) as [P1 P2]; [split; [auto|lia]|]. split; [exact P1|]. split; [exact P2|exact O2].
Qed.
Print Assumptions C14_stack_join.

Example C14_ex : sjoin no_env (Some [AConst 1; AConst 7]) [AConst 2] = (Some [ASet [1; 2]; ATop], true)
  /\ sjoin no_env (Some [ASet [1; 2]; ATop]) [AConst 2] = (Some [ASet [1; 2]; ATop], false).
Proof. split; reflexivity. Qed.

(** ** C15. *)
(** The analysis of every bytecode finishes (no panic, no endless loop). *)
Theorem C15_total info stack_io key lim code : tables_ok info stack_io -> Forall is_byte code -> Z.of_nat (length code) < 2 ^ 31 ->
  (forall a b : Z, key a = key b -> a = b) ->
  exists env prog p, load info stack_io key lim code = Some (env, prog) /\ analyze env prog = Some p.
Proof.
  intros TK B LEN KEY.
  destruct (load info stack_io key lim code) as [[env prog]|] eqn:E.
  - destruct (loaded_facts info stack_io key lim code env prog) as (PO & RAW & K & _); [split; [exact TK|]; split; [exact B|]; split; [exact LEN|]; split; [exact KEY|exact E]|].
    pose proof (analyze_total prog env PO RAW K) as T. destruct (analyze env prog) as [p|] eqn:EA; [|congruence]. eauto 6.
  - exfalso. unfold load in E. destruct (OpcodeProof.parse_total (active_of info) stack_io code) as [st Hst]. rewrite Hst in E. discriminate.
Qed.
Print Assumptions C15_total.

(** The fixpoint interprets at most 8 blocks per block of the program; it stops with an empty worklist
    or reports non-convergence. *)
Theorem C15_iterations env p s converged : run_fixpoint env p = (s, converged) ->
  exists n, fx_iter env p n (mkFx (upd (fun _ => None) 0%nat (Some [])) [0%nat] (fun _ => []) (b_snaps p) (b_used p)) s /\
    (n <= 8 * length (b_blocks p))%nat /\ (if converged then fx_queue s = [] else fx_queue s <> []).
Proof.
  intros H. destruct (fx_loop_iter _ _ _ _ _ _ H) as (n & H1 & H2 & H3). exists n. split; [exact H1|]. split; [lia|].
  destruct converged; [exact H3|apply H3].
Qed.
Print Assumptions C15_iterations.

(** Without convergence nothing of the fixpoint survives: snapshots are the block-local ones, and every
    jump resolution is computed from those (or weakened further). *)
Theorem C15_discard env p s rs sn u : run_fixpoint env p = (s, false) ->
  run_abstract_interp env p (b_snaps p) = Some (rs, sn, u) ->
  (forall i, (i < length (b_insts p))%nat -> sn_in sn i = sn_in (b_snaps p) i /\ sn_out sn i = sn_out (b_snaps p) i) /\
  (forall i r, In (i, r) rs -> r = resolve_jump env (b_insts p) (b_snaps p) i \/
                               r = weaken (b_insts p) (b_snaps p) i (resolve_jump env (b_insts p) (b_snaps p) i)).
Proof. exact (nonconverged_discards env p s rs sn u). Qed.
Print Assumptions C15_discard.

(** Two blocks, 17 constants rotated by SWAP1..SWAP16 in an endless loop: 18 interpretations would be
    needed, 16 are allowed. *)
Definition nc_code : list Z :=
  flat_map (fun n => [0x60; Z.of_nat n]) (seq 1 17) ++ [0x5b] ++ map (fun n => 0x8f + Z.of_nat n) (seq 1 16) ++ [0x60; 34; 0x56].
Example C15_ex_nonconverging :
  match load demo_info demo_io (fun v => v) 1000 nc_code with
  | Some (env, prog) =>
      match analyze_local env (initial prog) with
      | Some p => (length (b_blocks p) =? 2)%nat && negb (snd (run_fixpoint env p))
                  && match run_abstract_interp env p (b_snaps p) with Some _ => true | None => false end
      | None => false
      end
  | None => false
  end = true.
Proof. vm_compute. reflexivity. Qed.
