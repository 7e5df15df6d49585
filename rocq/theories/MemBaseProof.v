(** Proofs for C55. *)
From Verif Require Import ProgramModel InstModel BlockModel OpcodeSpec FlowSpec CfgProof BlockProof AnalysisProof GlobalProof ProgramProof SummarySpec SummaryProof SectionsModel SectionsSpec SectionsProof LinkProof SectionFlow
  BudgetSpec BudgetProof BlockProps DseModel DseSpec DseProof DseProps SectionFlowProps MemSecModel MemSecSpec MemSecProof MemSecProps MemBaseModel MemBaseSpec.
From Coq Require Import Lia ZifyBool.
Open Scope Z_scope.

(** ** Instructions whose results are never known at compile time. *)
Definition opaque (op : Z) : Prop := ~ evaluable op /\ ~ (0x5f <= op <= 0x7f) /\ op <> 0x50 /\ ~ (0x80 <= op <= 0x9f) /\ ~ (0xe6 <= op <= 0xe8).
Lemma opaque_tops env : tops env opaque.
Proof.
  intros i d stk used r u EI U. split.
  - destruct (interp_inst_charge _ _ _ _ _ _ _ EI) as [[-> _]|(v & c & s & _ & _ & _ & _ & PR & -> & _)]; [exact U|apply price_pos in PR; lia].
  - intros s v -> (O1 & O2 & O3 & O4 & O5) PO SW. unfold interp_inst, OP_PUSH0, OP_PUSH32, OP_POP, OP_DUPN, OP_SWAPN, OP_EXCHANGE in EI.
    replace ((0x5f <=? d_op d) && (d_op d <=? 0x7f)) with false in EI by lia. replace (d_op d =? 0x50) with false in EI by lia.
    replace ((0x80 <=? d_op d) && (d_op d <=? 0x8f)) with false in EI by lia. replace ((0x90 <=? d_op d) && (d_op d <=? 0x9f)) with false in EI by lia.
    replace (d_op d =? 0xe6) with false in EI by lia. replace (d_op d =? 0xe7) with false in EI by lia. replace (d_op d =? 0xe8) with false in EI by lia.
    destruct (length stk <? _)%nat; [discriminate|]. destruct (fold_inst env i d _ used) as [f u'] eqn:EF.
    destruct (fold_inst_charge _ _ _ _ _ _ _ EF) as [[-> _]|(v' & c & _ & EV & _)]; [|contradiction].
    injection EI as <- _. destruct (Z.to_nat (snd (d_io d))) eqn:EN; [lia|]. discriminate.
Qed.

(** ** Memory sections read few fields of an instruction. *)
Definition view (d : idata) := (d_op d, d_io d, d_reach d, (f_disabled (d_flags d), f_unknown (d_flags d), f_static (d_flags d), f_invalid (d_flags d))).
Definition alike_at (p q : bc) : Prop := b_snaps q = b_snaps p /\ b_blocks q = b_blocks p /\ b_dyn q = b_dyn p /\
  forall i, option_map view (nth_error (b_insts q) i) = option_map view (nth_error (b_insts p) i).
Lemma view_eq d e : view d = view e -> d_op d = d_op e /\ d_io d = d_io e /\ d_reach d = d_reach e /\ f_disabled (d_flags d) = f_disabled (d_flags e) /\
  f_unknown (d_flags d) = f_unknown (d_flags e) /\ f_static (d_flags d) = f_static (d_flags e) /\ f_invalid (d_flags d) = f_invalid (d_flags e).
Proof. unfold view. intros E. repeat (apply pair_equal_spec in E as [E ?]); repeat match goal with H : (_, _) = (_, _) |- _ => apply pair_equal_spec in H as [? ?] end. repeat split; congruence. Qed.
Lemma fold_ext {A B} (f g : A -> B -> A) l : (forall a b, f a b = g a b) -> forall a, fold_left f l a = fold_left g l a.
Proof. intros H. induction l as [|b l IH]; intros a; cbn; [reflexivity|]. rewrite H. apply IH. Qed.

Section View.
  Variables p q : bc.
  Hypothesis A : alike_at p q.
  Lemma view_at i : match nth_error (b_insts q) i, nth_error (b_insts p) i with Some d, Some e => view d = view e | None, None => True | _, _ => False end.
  Proof. destruct A as (_ & _ & _ & V). specialize (V i). destruct (nth_error (b_insts q) i), (nth_error (b_insts p) i); cbn in V; try discriminate; [congruence|exact Logic.I]. Qed.
  Lemma view_operand i k : operand64 q i k = operand64 p i k.
  Proof. unfold operand64, const_operand. destruct A as (-> & _). reflexivity. Qed.
  Lemma view_accesses i : const_memory_accesses q i = const_memory_accesses p i.
  Proof.
    unfold const_memory_accesses. pose proof (view_at i) as V. destruct (nth_error (b_insts q) i) as [d|], (nth_error (b_insts p) i) as [e|]; try contradiction; [|reflexivity].
    destruct (view_eq _ _ V) as (-> & _ & _ & -> & -> & _). rewrite !view_operand. reflexivity.
  Qed.
  Lemma view_block_accesses b : block_accesses q b = block_accesses p b.
  Proof. unfold block_accesses. apply flat_map_ext. intros i. apply view_accesses. Qed.
  Lemma view_exit b s : exit_state q b s = exit_state p b s.
  Proof. unfold exit_state, block_min, block_exact. rewrite view_block_accesses. reflexivity. Qed.
  Lemma view_dyn_target b : dyn_target q b = dyn_target p b.
  Proof.
    unfold dyn_target. destruct A as (_ & _ & -> & _). pose proof (view_at (bk_start b)) as V.
    destruct (nth_error (b_insts q) (bk_start b)) as [d|], (nth_error (b_insts p) (bk_start b)) as [e|]; try contradiction; [|reflexivity].
    destruct (view_eq _ _ V) as (E1 & _ & E3 & _). unfold is_reachable_jumpdest, is_jumpdest. rewrite E1, E3. reflexivity.
  Qed.
  Lemma view_dyn_block b : dyn_block q b = dyn_block p b.
  Proof.
    unfold dyn_block. destruct A as (_ & _ & -> & _). pose proof (view_at (terminator b)) as V.
    destruct (nth_error (b_insts q) (terminator b)) as [d|], (nth_error (b_insts p) (terminator b)) as [e|]; try contradiction; [|reflexivity].
    destruct (view_eq _ _ V) as (E1 & _ & _ & _ & _ & E6 & E7). unfold is_static_jump, is_jump. rewrite E1, E6, E7. reflexivity.
  Qed.
  Lemma view_dyn_targets : dyn_targets q = dyn_targets p.
  Proof.
    unfold dyn_targets. destruct A as (_ & -> & _). apply filter_ext. intros b. destruct (nth_error (b_blocks p) b); [apply view_dyn_target|reflexivity].
  Qed.
  Lemma view_step b l : ml_step q b l = ml_step p b l.
  Proof.
    unfold ml_step. rewrite view_dyn_targets. pose proof A as (_ & -> & _). destruct (nth_error (b_blocks p) b); [|reflexivity]. rewrite view_exit, view_dyn_block. reflexivity.
  Qed.
  Lemma view_run fuel : forall l, ml_run q fuel l = ml_run p fuel l.
  Proof. induction fuel as [|f IH]; intros l; cbn [ml_run]; destruct (ml_queue l); try reflexivity. rewrite view_step. apply IH. Qed.
  Lemma view_insts l : forall k e secs, save_insts q l k e secs = save_insts p l k e secs.
  Proof. induction l as [|i l IH]; intros k e secs; cbn [save_insts]; [reflexivity|]. rewrite view_accesses. destruct (fold_left _ _ _) as [[k' e'] s']. apply IH. Qed.
  Lemma view_sections fuel : memory_sections q fuel = memory_sections p fuel.
  Proof.
    unfold memory_sections, entry_states. rewrite view_run. pose proof A as (_ & -> & _). destruct (ml_run p fuel ml_init) as [est|]; [|reflexivity]. cbn [option_map]. f_equal.
    apply fold_ext. intros secs b. unfold save_block. pose proof A as (_ & -> & _). destruct (ms_known (est b)); [|reflexivity]. destruct (nth_error (b_blocks p) b); [|reflexivity]. apply view_insts.
  Qed.
  Lemma view_skip secs i : MemSecModel.can_skip q secs i = MemSecModel.can_skip p secs i.
  Proof. unfold MemSecModel.can_skip. rewrite view_accesses. reflexivity. Qed.
End View.

(** ** Which instructions grow memory. *)
Lemma quiet_ops op inl : is_access op = false -> calls_builtin inl op = false -> mem_operands op = 0 /\ ~ yields op.
Proof.
  intros A C. unfold calls_builtin in C. destruct (mem_operands_in op) as [E|I].
  - split; [exact E|]. intros Y. unfold yields in Y. cbn [In] in Y.
    destruct ((4 <=? op) && (op <=? 10)) eqn:X; [lia|]. cbn [existsb] in C. lia.
  - exfalso. unfold is_access in A. cbn [In] in I. destruct ((4 <=? op) && (op <=? 10)) eqn:X; [lia|]. cbn [existsb] in C. lia.
Qed.
Lemma access_op op : is_access op = true -> 0x51 <= op <= 0x53.
Proof. unfold is_access. lia. Qed.
Lemma access_opaque op : is_access op = true -> opaque op.
Proof. unfold is_access, opaque, evaluable. lia. Qed.
Lemma opaque_dec op : opaque op \/ (mem_operands op = 0 /\ ~ yields op).
Proof.
  destruct (mem_operands_in op) as [E|I].
  - destruct (in_dec Z.eq_dec op [0xf0; 0xf1; 0xf2; 0xf4; 0xf5; 0xfa]) as [Y|N]; [|right; auto]. left. cbn [In] in Y. unfold opaque, evaluable. lia.
  - left. cbn [In] in I. unfold opaque, evaluable. lia.
Qed.

(** ** The invariant. *)
Section Run.
  Context {Y : Type} (info : Z -> opinfo) (stack_io : Z -> Z * Z) (key : Z -> Z) (lim : Z) (code : list Z)
          (env : aenv) (prog : list idata) (sem : nat -> list Z -> Y -> option (list Z * Y)) (y0 : Y) (msize : Y -> Z).
  Hypothesis L : loaded info stack_io key lim code env prog.
  Hypothesis EFF : forall op, evm_effect (stack_io op).
  Hypothesis SO : sem_ok prog (a_const env) sem (a_codelen env).
  Hypothesis MS : mem_sem prog sem msize y0.
  Hypothesis SH : shallow env prog sem y0.
  Variables (p p' : bc) (inspect istanbul : bool) (extra : nat -> Z) (fuel : nat) (secs : nat -> msection) (inlined : nat -> bool).
  Hypothesis AN : analyze env prog = Some p.
  Hypothesis TOPICS : topics_unknown p.
  Hypothesis HP : p' = p \/ dead_store_elim inspect (a_const env) p = Some p'.
  Notation q := (finish_sections istanbul extra p').
  Hypothesis SECS : memory_sections q fuel = Some secs.
  Notation R := (reach prog (a_const env) (a_dest env) sem y0).
  Notation step := (evm_step prog (a_const env) (a_dest env) sem).

  Lemma fresh_at i d : nth_error (b_insts p) i = Some d -> evm_effect (d_io d) /\ f_noop (d_flags d) = false /\ f_head (d_flags d) = false.
  Proof.
    intros H. destruct L as (TK & B & LEN & KEY & LD). destruct (analysed_effect info stack_io code key lim EFF B env prog LD p AN i d H) as (A1 & A2 & A3 & _). auto.
  Qed.
  (** What dead store elimination did. *)
  Lemma dse_at : b_snaps p' = b_snaps p /\ b_blocks p' = b_blocks p /\ b_dyn p' = b_dyn p /\ length (b_insts p') = length (b_insts p) /\
    forall i d d', nth_error (b_insts p) i = Some d -> nth_error (b_insts p') i = Some d' ->
      d' = d \/ d' = set_noop d /\ mem_operands (d_op d) = 0 /\ ~ yields (d_op d).
  Proof.
    destruct HP as [-> |DE]; [repeat split; intros; left; congruence|].
    assert (RF : exists p0, refresh_cfg p0 = Some p).
    { pose proof AN as AN'. unfold analyze in AN'. destruct (analyze_local env (initial prog)) as [pl|]; [|discriminate].
      unfold analyze_global in AN'. destruct (block_analysis env pl _) as [q0|]; [|discriminate]. eauto. }
    destruct RF as (p0 & RF). destruct (C18_marks_only_stack_instructions inspect (a_const env) p0 p p' RF DE) as (LL & W & HM).
    specialize (W []). unfold with_insts in W. injection W as _ _ E3 E4 E5 _. repeat (split; [symmetry; assumption|]). split; [exact LL|].
    intros i d d' H H'. destruct (HM i d d' H H') as [->|(-> & _ & _ & _ & _ & _ & bl & _ & _ & X)]; [left; reflexivity|right]. split; [reflexivity|].
    specialize (X 0). unfold shape_of in X. unfold stack_only in X.
    destruct ((0x80 <=? d_op d) && (d_op d <=? 0x8f)) eqn:X1; [split; [apply no_mem; lia|unfold yields; cbn [In]; lia]|].
    destruct ((0x90 <=? d_op d) && (d_op d <=? 0x9f)) eqn:X2; [split; [apply no_mem; lia|unfold yields; cbn [In]; lia]|].
    destruct (d_op d =? 0xe6) eqn:X3; [split; [apply no_mem; lia|unfold yields; cbn [In]; lia]|].
    destruct (d_op d =? 0xe7) eqn:X4; [split; [apply no_mem; lia|unfold yields; cbn [In]; lia]|].
    destruct (d_op d =? 0xe8) eqn:X5; [split; [apply no_mem; lia|unfold yields; cbn [In]; lia]|].
    destruct (((((d_op d =? 0xf0) || _) || _) || _) || _ || _) eqn:X6 in X; [contradiction|]. destruct (d_op d =? 0x50); [contradiction|].
    split; [|unfold yields; cbn [In]; lia]. destruct (mem_operands_in (d_op d)) as [E|I]; [exact E|]. exfalso. cbn [In] in I. lia.
  Qed.
  Lemma io_fine : Forall io_ok (b_insts p').
  Proof.
    destruct dse_at as (_ & _ & _ & LL & D). apply Forall_forall. intros d' Hd. apply In_nth_error in Hd as (k & Hk).
    destruct (nth_error (b_insts p) k) as [d|] eqn:H; [|apply nth_error_None in H; apply nth_lt in Hk; lia].
    assert (d_io d' = d_io d) as E by (destruct (D k d d' H Hk) as [->|(-> & _)]; reflexivity).
    destruct (fresh_at k d H) as (EE & _). unfold evm_effect in EE. unfold io_ok. rewrite E. lia.
  Qed.
  Lemma fresh_heads k d : nth_error (b_insts p') k = Some d -> f_head (d_flags d) = false.
  Proof.
    intros H'. destruct dse_at as (_ & _ & _ & LL & D). destruct (nth_error (b_insts p) k) as [d0|] eqn:H; [|apply nth_error_None in H; apply nth_lt in H'; lia].
    destruct (fresh_at k d0 H) as (_ & _ & F). destruct (D k d0 d H H') as [->|(-> & _)]; exact F.
  Qed.
  (** Everything about instruction [i] of the final program. *)
  Lemma final_at i d : nth_error (b_insts p) i = Some d -> exists d' dq, nth_error (b_insts p') i = Some d' /\ nth_error (b_insts q) i = Some dq /\
    view dq = view d /\ is_dead dq = is_dead d /\ is_dead d' = is_dead d /\ view d' = view d /\ (f_noop (d_flags dq) = true -> mem_operands (d_op d) = 0 /\ ~ yields (d_op d)).
  Proof.
    intros H. destruct dse_at as (_ & _ & _ & LL & D). destruct (nth_some (b_insts p') i) as (d' & H'); [apply nth_lt in H; congruence|].
    destruct (fresh_at i d H) as (_ & N & _). exists d'.
    assert (G : exists dq, nth_error (b_insts q) i = Some dq /\ view dq = view d' /\ is_dead dq = is_dead d' /\ f_noop (d_flags dq) = f_noop (d_flags d')).
    { cbn [finish_sections with_insts b_insts]. rewrite construct_sections_go by exact io_fine. rewrite go_nth, H'.
      eexists. split; [reflexivity|]. destruct (is_dead d') eqn:DD; [rewrite DD; auto|]. destruct (_ || _); [|rewrite DD; auto].
      unfold mark. destruct (_ =? 0); repeat split; exact DD. }
    destruct G as (dq & Hq & V & DD & NN). exists dq. split; [exact H'|]. split; [exact Hq|]. rewrite V, DD, NN.
    destruct (D i d d' H H') as [->|(-> & A & B)]; repeat split; try (intros; split; assumption); congruence.
  Qed.
  Lemma final_alike : alike_at p q.
  Proof.
    destruct dse_at as (A & B & C & LL & _). split; [exact A|]. split; [exact B|]. split; [exact C|]. intros i.
    destruct (nth_error (b_insts p) i) as [d|] eqn:H.
    - destruct (final_at i d H) as (d' & dq & _ & -> & V & _). cbn. f_equal. exact V.
    - destruct (nth_error (b_insts q) i) as [x|] eqn:X; [|reflexivity]. exfalso. cbn [finish_sections with_insts b_insts] in X. rewrite construct_sections_go, go_nth in X by exact io_fine.
      apply nth_error_None in H. destruct (nth_error (b_insts p') i) as [d'|] eqn:H'; [|discriminate]. apply nth_lt in H'. lia.
  Qed.
  Lemma not_folded i d dq : nth_error (b_insts p) i = Some d -> view dq = view d -> is_folded q i dq = true -> mem_operands (d_op d) = 0 /\ ~ yields (d_op d).
  Proof.
    intros H V F. destruct (opaque_dec (d_op d)) as [O|E]; [|exact E]. exfalso. unfold is_folded in F. apply andb_true_iff in F as [_ F].
    unfold const_output in F. destruct final_alike as (E & _). rewrite E in F. destruct (sn_out (b_snaps p) i) as [a|] eqn:X; [|discriminate]. destruct a; try discriminate F.
    all: revert X; destruct (loaded_facts _ _ _ _ _ _ _ L) as (_ & RAW & _); destruct (sound_analysis info stack_io key lim code env prog sem y0 L SO p SH AN) as [OK _];
      destruct (skel_orig _ _ _ _ (pr_skel _ _ _ _ _ _ (co_pre _ _ _ _ _ _ OK)) H) as (d0 & H0 & (So & _)).
    all: rewrite So in O; apply (analyze_quiet env opaque prog p (opaque_tops env) RAW AN i (d_op d0)); [|exact O]; rewrite nth_error_map, H0; reflexivity.
  Qed.

  Notation run := (base_run prog (a_const env) (a_dest env) sem msize y0 (base_source q secs inlined)).
  Notation cb := (cache_before q secs inlined).
  Lemma run_reach i st y b v : run i st y b v -> R i st y.
  Proof. induction 1; [constructor|econstructor; eauto]. Qed.

  (** One instruction, given a cache that is right on entry. *)
  Lemma inst_ok' i st y b v j st' y' b' d dq c : R i st y -> step i st y = Some (j, st', y') -> base_moves prog msize i y y' b b' ->
    nth_error (b_insts p) i = Some d -> nth_error (b_insts q) i = Some dq ->
    c = head_cache dq (cb i) -> (forall k, c = Some k -> v k = b) ->
    (is_access (d_op d) = true -> exists k, base_source q secs inlined i = Some k /\ loads (base_source q secs inlined) i b' v k = b') /\
    ((j = S i -> ~ yields (d_op d)) -> j = S i -> forall k, cb (S i) = Some k -> loads (base_source q secs inlined) i b' v k = b').
  Proof.
    intros HR HS BM H Hq Ec HC. destruct (sound_analysis info stack_io key lim code env prog sem y0 L SO p SH AN) as [OK G].
    pose proof (co_pre _ _ _ _ _ _ OK) as PR. pose proof (pr_live _ _ _ _ _ _ PR _ _ _ _ HR H) as LV.
    destruct (loaded_facts _ _ _ _ _ _ _ L) as (PO & _).
    destruct (skel_orig _ _ _ _ (pr_skel _ _ _ _ _ _ PR) H) as (d0 & H0 & (So & _)).
    destruct (step_mem prog env sem y0 msize PO MS p OK i st y j st' y' d H HS) as (Hf & Hl & MM).
    specialize (MM (msize_range prog env sem y0 msize PO MS p OK i st y HR)). destruct MM as (MM & _).
    pose proof (msize_range prog env sem y0 msize PO MS p OK i st y HR) as MR.
    assert (KEEP : evm_mem (d_op d) st <= msize y -> ~ yields (d_op d) -> b' = b).
    { intros A B. apply (BM d0 H0); [rewrite <- So; exact B|lia]. }
    assert (ZERO : mem_operands (d_op d) = 0 /\ ~ yields (d_op d) -> b' = b).
    { intros (A & B). apply KEEP; [rewrite evm_mem_zero by exact A; lia|exact B]. }
    assert (SKIP : MemSecModel.can_skip q secs i = true -> evm_mem (d_op d) st <= msize y).
    { intros K. rewrite (view_skip _ _ final_alike) in K. rewrite (view_sections _ _ final_alike) in SECS.
      exact (C10_skip_partial info stack_io key lim code env prog sem y0 msize L SO MS p fuel secs (or_intror (conj SH AN)) TOPICS SECS i st y d HR H Hl K). }
    destruct (final_at i d H) as (d' & dq' & _ & Hq' & V & DD & _ & _ & NO). assert (dq' = dq) by congruence. subst dq'.
    destruct (view_eq _ _ V) as (Vo & _ & _ & Vd & Vu & _). rewrite LV in DD. rewrite <- Vd, <- Vu in Hf.
    assert (SRC : base_source q secs inlined i = if f_noop (d_flags dq) || is_folded q i dq || negb (is_access (d_op d)) then None else Some (access_base q secs i c)).
    { unfold base_source. rewrite Hq, DD, Vo, <- Ec. apply orb_false_iff in Hf as [-> ->]. reflexivity. }
    assert (CB : cb (S i) = if f_noop (d_flags dq) then c else if is_folded q i dq then c else if is_access (d_op d) then Some (access_base q secs i c)
                            else if calls_builtin (inlined i) (d_op d) then call_cache q secs i c else c).
    { cbn [cache_before]. rewrite Hq, DD. unfold inst_cache. rewrite Hf, <- Ec, Vo. reflexivity. }
    assert (VAL : is_access (d_op d) = true -> forall k, base_source q secs inlined i = Some k -> k = access_base q secs i c -> loads (base_source q secs inlined) i b' v k = b').
    { intros A k Ek E. unfold loads. rewrite Ek. destruct (k =? i)%nat eqn:KI; [apply Nat.eqb_eq in KI; subst i; rewrite Nat.eqb_refl; reflexivity|].
      apply Nat.eqb_neq in KI. subst k. unfold access_base, memory_addr in *. destruct (MemSecModel.can_skip q secs i) eqn:K.
      - destruct c as [k|]; [|congruence]. rewrite (HC k eq_refl). symmetry. apply KEEP; [apply SKIP; reflexivity|].
        apply access_op in A. unfold yields. cbn [In]. lia.
      - destruct (negb _) in KI; congruence. }
    split.
    - intros A. assert (NZ : ~ (mem_operands (d_op d) = 0)).
      { apply access_op in A. assert (d_op d = 0x51 \/ d_op d = 0x52 \/ d_op d = 0x53) as [-> |[-> | ->]] by lia; discriminate. }
      destruct (f_noop (d_flags dq)) eqn:F1; [destruct (NO eq_refl); contradiction|]. destruct (is_folded q i dq) eqn:F2; [destruct (not_folded i d dq H V F2); contradiction|].
      rewrite A in SRC. cbn [orb negb] in SRC. exists (access_base q secs i c). split; [exact SRC|]. apply VAL; auto.
    - intros NY EJ k Ek. rewrite CB in Ek. specialize (NY EJ).
      destruct (f_noop (d_flags dq)) eqn:F1; cbn [orb] in SRC.
      { unfold loads. rewrite SRC, (HC k Ek). symmetry. apply ZERO, NO. reflexivity. }
      destruct (is_folded q i dq) eqn:F2; cbn [orb] in SRC.
      { unfold loads. rewrite SRC, (HC k Ek). symmetry. apply ZERO. eapply not_folded; eauto. }
      destruct (is_access (d_op d)) eqn:F3; cbn [negb] in SRC.
      { injection Ek as <-. apply VAL; auto. }
      unfold loads. rewrite SRC. destruct (calls_builtin (inlined i) (d_op d)) eqn:F4.
      + unfold call_cache in Ek. destruct (MemSecModel.can_skip q secs i) eqn:K; [|discriminate]. rewrite (HC k Ek). symmetry. apply KEEP; auto.
      + rewrite (HC k Ek). symmetry. apply ZERO. eapply quiet_ops; eauto.
  Qed.

  Lemma head_at j dq : nth_error (b_insts q) j = Some dq -> entry (b_dyn p') istanbul (b_insts p') j -> f_head (d_flags dq) = true.
  Proof. intros H E. exact (proj2 (head_iff (b_dyn p') istanbul extra (b_insts p') io_fine fresh_heads j dq H) E). Qed.

  Lemma run_inv i st y b v : run i st y b v -> forall dq, nth_error (b_insts q) i = Some dq -> forall k, head_cache dq (cb i) = Some k -> v k = b.
  Proof.
    induction 1 as [b v|i st y b v j st' y' b' HR IH HS BM]; intros dq Hq k Hk.
    - unfold head_cache in Hk. cbn in Hk. destruct (f_head _); discriminate.
    - unfold head_cache in Hk. destruct (f_head (d_flags dq)) eqn:FH; [discriminate|].
      pose proof (run_reach _ _ _ _ _ HR) as R1. pose proof (reach_step _ _ _ _ _ _ _ _ _ _ _ R1 HS) as R2.
      destruct (sound_analysis info stack_io key lim code env prog sem y0 L SO p SH AN) as [OK G].
      pose proof (co_pre _ _ _ _ _ _ OK) as PR. destruct (loaded_facts _ _ _ _ _ _ _ L) as (PO & _ & _ & DEST & _).
      assert (HI : exists d, nth_error (b_insts p) i = Some d).
      { unfold evm_step in HS. destruct (nth_error prog i) as [d0|] eqn:H0; [|discriminate]. apply nth_some. rewrite (proj1 (pr_skel _ _ _ _ _ _ PR)). apply nth_lt in H0. exact H0. }
      destruct HI as (d & H). pose proof (pr_live _ _ _ _ _ _ PR _ _ _ _ R1 H) as LV.
      assert (HJ : exists dj, nth_error (b_insts p) j = Some dj).
      { destruct (nth_error (b_insts p) j) as [dj|] eqn:X; [eauto|]. exfalso. apply nth_error_None in X. apply nth_lt in Hq.
        destruct final_alike as (_ & _ & _ & A). specialize (A j). apply nth_error_None in X. rewrite X in A. destruct (nth_error (b_insts q) j) eqn:Y0; [discriminate|]. apply nth_error_None in Y0. lia. }
      destruct HJ as (dj & Hj). pose proof (pr_live _ _ _ _ _ _ PR _ _ _ _ R2 Hj) as LJ.
      destruct (final_at j dj Hj) as (dj' & dqj & Hj' & Hqj & Vq & _ & Dj' & Vj & _). assert (dqj = dq) by congruence. subst dqj. rewrite LJ in Dj'.
      destruct dse_at as (_ & _ & DY & _).
      assert (NE : ~ entry (b_dyn p') istanbul (b_insts p') j) by (intros E; rewrite (head_at j dq Hq E) in FH; discriminate).
      destruct (flow prog (a_const env) (a_dest env) sem y0 (fun w n E => proj1 (proj1 (DEST w n) E)) p i st y j st' y' d (pr_skel _ _ _ _ _ _ PR) (pr_redir _ _ _ _ _ _ PR) (co_fresh _ _ _ _ _ _ OK)
        (pr_flags _ _ _ _ _ _ PR) R1 H LV HS) as [[-> _]|(dj0 & w & Hj0 & Jd & RJ & _)].
      + destruct (final_at i d H) as (d' & dqi & Hd' & Hqi & V & _ & D' & V' & _).
        eapply (inst_ok' i st y b v (S i) st' y' b' d dqi (head_cache dqi (cb i))); eauto.
        intros _ YL. apply NE. exists dj'. split; [exact Hj'|]. split; [exact Dj'|]. right. rewrite LV in D'. rewrite (prev_live_here _ _ _ Hd' D').
        destruct (view_eq _ _ V') as (Vo & _). unfold ends_section, may_suspend, OP_CALL, OP_CALLCODE, OP_DELEGATECALL, OP_STATICCALL, OP_CREATE, OP_CREATE2. rewrite Vo.
        apply orb_true_iff. left. apply orb_true_iff. left. unfold yields in YL. clear -YL. cbn [In] in YL. lia.
      + exfalso. apply NE. exists dj'. split; [exact Hj'|]. split; [exact Dj'|]. left. assert (dj0 = dj) by congruence. subst dj0.
        destruct (view_eq _ _ Vj) as (Vo & _ & Vr & _). unfold is_reachable_jumpdest, is_jumpdest in *. rewrite DY, Vo, Vr. exact RJ.
  Qed.

  Lemma base_ok i st y b v j st' y' b' d : run i st y b v -> step i st y = Some (j, st', y') -> base_moves prog msize i y y' b b' ->
    nth_error prog i = Some d -> is_access (d_op d) = true ->
    exists k, base_source q secs inlined i = Some k /\ loads (base_source q secs inlined) i b' v k = b'.
  Proof.
    intros HR HS BM H0 A. destruct (sound_analysis info stack_io key lim code env prog sem y0 L SO p SH AN) as [OK G].
    pose proof (pr_skel _ _ _ _ _ _ (co_pre _ _ _ _ _ _ OK)) as SK. destruct (nth_some (b_insts p) i) as (d1 & H1); [rewrite (proj1 SK); apply nth_lt in H0; exact H0|].
    destruct (proj2 SK i d d1 H0 H1) as (So & _). destruct (final_at i d1 H1) as (d' & dq & _ & Hq & _).
    eapply (inst_ok' i st y b v j st' y' b' d1 dq (head_cache dq (cb i))); eauto.
    - apply (run_reach _ _ _ _ _ HR).
    - eapply run_inv; eauto.
    - rewrite So. exact A.
  Qed.
End Run.
