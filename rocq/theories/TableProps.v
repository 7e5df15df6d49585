(** Property C24: the dynamic jump table. *)
From Verif Require Import ProgramModel JumpModel OpcodeSpec OpcodeProof FlowSpec CfgProof ArithSpec BlockProof ProgramProof AnalysisProof DemoTables OpcodeProps BlockProps DedupModel DedupProof DedupRedir DedupProps TableProof.
From Coq Require Import ZifyBool Permutation.
Open Scope Z_scope.

(** The analysed program, with or without deduplication (in any order of the groups). *)
Definition analysed ord env prog p : Prop := analyze env prog = Some p \/
  ((forall gs : list (list nat), Permutation (ord gs) gs) /\ analyze_dedup ord env prog = Some p).

Lemma analysed_facts info stack_io key lim code env prog ord p : loaded info stack_io key lim code env prog -> analysed ord env prog p ->
  later prog (b_insts p) /\ b_dyn p = existsb unresolved (b_insts p) /\ key_dead p /\ NoDup (map fst (b_redirects p)).
Proof.
  intros L [E|[PO E]]; destruct (loaded_facts info stack_io key lim code env prog L) as (PK & RAW & KEY & _).
  - destruct (analyze_later _ _ _ E) as (A & B & _). split; [exact A|]. split; [exact B|].
    unfold analyze in E. destruct (analyze_local env (initial prog)) as [pl|] eqn:E1; [|discriminate].
    destruct (local_start _ _ (initial_start _ RAW) _ E1) as (S1 & _). destruct (global_start _ _ S1 _ E) as ((R & _) & _).
    unfold key_dead. rewrite R. split; [intros ? ? []|constructor].
  - destruct (analyze_dedup_later _ _ _ _ PO E) as (A & B). split; [exact A|]. split; [exact B|].
    destruct (analyze_dedup_ok ord env prog PO RAW (analyze_total prog env PK RAW KEY)) as (p' & E' & RI & _). assert (p' = p) by congruence. subst p'.
    destruct RI as [D M KD SH ND]. auto.
Qed.

(** C24. For every bytecode, with or without deduplication, if the table is generated (dynamic jumps
    remain) then it sends a 256-bit value [v] to the entry of the instruction of the JUMPDEST at pc [v],
    and to InvalidJump exactly if no JUMPDEST instruction has that pc. *)
Theorem C24_table info stack_io key lim code env prog ord p v : loaded info stack_io key lim code env prog -> analysed ord env prog p ->
  b_dyn p = true -> is_word v ->
  exists st, parse (active_of info) stack_io code = Some st /\
    (forall j, switch_pcs env p (table_insts p) (saturate64 v) = JGoto j <->
       exists ins, nth_error (p_insts st) j = Some ins /\ i_op ins = 0x5b /\ Z.of_nat (i_pc ins) = v) /\
    (switch_pcs env p (table_insts p) (saturate64 v) = JInvalidJump <->
       forall ins, In ins (p_insts st) -> i_op ins = 0x5b -> Z.of_nat (i_pc ins) <> v).
Proof.
  intros L AN DY [V _]. destruct (analysed_facts _ _ _ _ _ _ _ _ _ L AN) as (LT & D & KD & ND).
  destruct (loaded_facts info stack_io key lim code env prog L) as (PK & RAW & KEY & DS & PC & _).
  rewrite (table_exact env prog p LT RAW ltac:(congruence) KD ND DS PC v V).
  destruct L as (TK & B & LEN & _ & LD). unfold load in LD. destruct (parse (active_of info) stack_io code) as [st|] eqn:P; [|discriminate].
  exists st. split; [reflexivity|]. apply (f_equal (fun o => match o with Some x => x | None => (env, prog) end)) in LD. cbn match in LD. apply pair_equal_spec in LD as [<- <-].
  set (env := program_env code st key lim) in *. set (prog := pad_insts (map (idata_of info) (p_insts st))) in *.
  assert (IFF : forall j, a_dest env v = Some j <-> exists ins, nth_error (p_insts st) j = Some ins /\ i_op ins = 0x5b /\ Z.of_nat (i_pc ins) = v).
  { intros j. rewrite DS. split.
    - intros [(d & Hd & O) C]. destruct (pad_nth _ _ _ _ Hd) as [(ins & X & ->)|[_ ->]]; [|discriminate]. cbn in O. exists ins. split; [exact X|]. split; [exact O|].
      rewrite <- C. subst env. cbn. rewrite X. unfold inst_const. rewrite O. cbn. symmetry. eapply (pc_data info stack_io code key lim B LEN st P); [eapply nth_error_In; eauto|left; exact O].
    - intros (ins & X & O & E). split; [exists (idata_of info ins); split; [apply pad_nth_old, X|exact O]|].
      subst env. cbn. rewrite X. unfold inst_const. rewrite O. cbn. rewrite <- E. eapply (pc_data info stack_io code key lim B LEN st P); [eapply nth_error_In; eauto|left; exact O]. }
  split.
  - intros j. destruct (a_dest env v) as [j0|] eqn:E.
    + rewrite <- IFF. split; intros H; congruence.
    + split; [discriminate|]. intros H. apply IFF in H. congruence.
  - destruct (a_dest env v) as [j0|] eqn:E.
    + split; [discriminate|]. intros H. exfalso. destruct (proj1 (IFF j0) eq_refl) as (ins & X & O & EV). apply (H ins); auto. eapply nth_error_In; eauto.
    + split; [|reflexivity]. intros _ ins Hin O EV. apply In_nth_error in Hin as [j Hj]. enough (None = Some j) by discriminate. apply IFF. eauto.
Qed.
Print Assumptions C24_table.

(** C24 against the EVM's jump destination analysis. Its two extra hypotheses are those of C02: without
    them the parser's JUMPDESTs themselves are not the EVM's (finding F3). *)
Theorem C24_evm info stack_io key lim code env prog ord p v : loaded info stack_io key lim code env prog -> analysed ord env prog p ->
  pushes_active (active_of info) -> no_push_immediate (active_of info) code ->
  b_dyn p = true -> is_word v ->
  (switch_pcs env p (table_insts p) (saturate64 v) = JInvalidJump <-> ~ evm_valid_jumpdest code (Z.to_nat v)) /\
  (evm_valid_jumpdest code (Z.to_nat v) -> exists j st ins, parse (active_of info) stack_io code = Some st /\
     switch_pcs env p (table_insts p) (saturate64 v) = JGoto j /\ nth_error (p_insts st) j = Some ins /\ i_pc ins = Z.to_nat v /\ i_op ins = 0x5b).
Proof.
  intros L AN PA NP DY V. destruct (C24_table _ _ _ _ _ _ _ _ _ _ L AN DY V) as (st & P & G & I).
  destruct (C02_jumpdests_partial (active_of info) stack_io code PA NP) as (st' & P' & J). assert (st' = st) by congruence. subst st'.
  assert (X : evm_valid_jumpdest code (Z.to_nat v) <-> exists ins, In ins (p_insts st) /\ i_op ins = 0x5b /\ Z.of_nat (i_pc ins) = v).
  { rewrite <- J. destruct (parse_inst_inv _ _ _ _ P) as (_ & _ & _ & _ & Hdst & _ & Hjd). destruct V as [V _]. unfold is_valid_jump. split.
    - intros H. apply existsb_exists in H as (d & Hd & Ed). apply Nat.eqb_eq in Ed. subst d. destruct (Hdst _ Hd) as (ins & X1 & X2 & X3). exists ins. split; [exact X1|]. split; [exact X3|]. lia.
    - intros (ins & H1 & H2 & H3). apply existsb_exists. exists (Z.to_nat v). split; [|apply Nat.eqb_refl]. rewrite <- H3, Nat2Z.id. apply (Hjd ins H1 H2). }
  split.
  - rewrite I, X. split; [intros H (ins & A & B & C); exact (H ins A B C)|]. intros H ins A B C. apply H. eauto.
  - intros H. apply X in H as (ins & A & B & C). apply In_nth_error in A as [j Hj]. exists j, st, ins. split; [exact P|]. split; [apply G; eauto|].
    split; [exact Hj|]. split; [lia|exact B].
Qed.
Print Assumptions C24_evm.

(** The code of every jump left unresolved by the analysis uses the table, and the table is there. *)
Theorem C24_unresolved info stack_io key lim code env prog ord p i d t c : loaded info stack_io key lim code env prog -> analysed ord env prog p ->
  nth_error (b_insts p) i = Some d -> d_op d = 0x56 \/ (d_op d = 0x57 /\ has_const_jumpi_condition d = false /\ c <> 0) ->
  is_dead d = false -> f_static (d_flags d) = false ->
  b_dyn p = true /\ lower_jump env p i d t c = Some (switch_pcs env p (table_insts p) (saturate64 t)).
Proof.
  intros L AN Hd O DD FS. destruct (analysed_facts _ _ _ _ _ _ _ _ _ L AN) as ([LN LT] & D & _).
  destruct (loaded_facts info stack_io key lim code env prog L) as (_ & RAW & _ & _ & _ & NXP).
  destruct (LT i d Hd) as (d0 & H0 & [O0 SN] & _).
  assert (NX : d_op d = 0x57 -> (S i < length (b_insts p))%nat) by (intros E; rewrite LN; eapply NXP; [exact H0|congruence]).
  destruct (SN ltac:(intros _; split; apply (RAW i d0 H0)) FS) as [FI FM].
  assert (DY : b_dyn p = true).
  { rewrite D. apply existsb_exists. exists d. split; [eapply nth_error_In; eauto|]. unfold unresolved, is_jump, OP_JUMP, OP_JUMPI. rewrite FS, DD. lia. }
  split; [exact DY|]. unfold lower_jump. rewrite FI, FM, FS, DY. cbn [andb].
  destruct O as [O|(O & HC & C0)].
  - rewrite O. cbn. reflexivity.
  - rewrite O, HC. unfold OP_JUMPI. cbn [Z.eqb Pos.eqb negb andb]. unfold effective_next_entry. specialize (NX O). destruct (Nat.ltb_spec (S i) (length (b_insts p))); [|lia].
    destruct (Z.eqb_spec c 0); [congruence|reflexivity].
Qed.
Print Assumptions C24_unresolved.

(** A contract whose jump operand comes from CALLDATASIZE: two destinations, one of them in code that
    nothing reaches statically. *)
Definition tb_code : list Z := [0x36; 0x56; 0x5b; 0x00; 0x5b; 0x5b; 0xf3].
Example C24_ex : match load demo_info demo_io (fun v => v) 1000 tb_code with
  | Some (env, prog) => match analyze_dedup (@rev _) env prog with
       | Some p => b_dyn p && jnext_eqb (Some (switch_pcs env p (table_insts p) (saturate64 2))) (Some (JGoto 2))
                   && jnext_eqb (Some (switch_pcs env p (table_insts p) (saturate64 5))) (Some (JGoto 5))
                   && jnext_eqb (Some (switch_pcs env p (table_insts p) (saturate64 3))) (Some JInvalidJump)
                   && jnext_eqb (Some (switch_pcs env p (table_insts p) (saturate64 (2 ^ 64 + 2)))) (Some JInvalidJump)
       | None => false end
  | None => false end = true.
Proof. vm_compute. reflexivity. Qed.
Example C24_ex_hyp : exists env prog p, loaded demo_info demo_io (fun v => v) 1000 tb_code env prog /\ analysed (@rev _) env prog p /\ b_dyn p = true /\ is_word 5 /\
  nth_error (b_insts p) 1 <> None.
Proof.
  pose proof C24_ex as H. destruct (load demo_info demo_io (fun v => v) 1000 tb_code) as [[env prog]|] eqn:EL; [|discriminate].
  destruct (analyze_dedup (@rev _) env prog) as [p|] eqn:EA; [|discriminate]. repeat (apply andb_true_iff in H as [H ?]).
  exists env, prog, p. split.
  { split; [exact demo_tables_ok|]. split; [apply bytes_check; vm_compute; reflexivity|]. split; [vm_compute; reflexivity|]. split; [auto|exact EL]. }
  split; [right; split; [intros gs; symmetry; apply Permutation_rev|exact EA]|]. split; [exact H|]. split; [split; [lia|reflexivity]|].
  intros N. apply nth_error_None in N. destruct (analyze_dedup_later _ _ _ _ (fun gs => Permutation_sym (Permutation_rev gs)) EA) as ([LL _] & _).
  rewrite LL in N. clear - EL N. apply (f_equal (fun o => match o with Some (_, l) => (length l <=? 1)%nat | None => true end)) in EL.
  destruct (Nat.leb_spec (length prog) 1); [vm_compute in EL; discriminate|lia].
Qed.
