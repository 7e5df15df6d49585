(** Property C09: section summaries, and C18/C19 from bytecode to compiled block. *)
From Verif Require Import OpcodeSpec SectionsModel SectionsProof SummarySpec DseProof StructProof CfgProof ProgramProof FlowSpec BlockProof DemoTables SummaryProof SummaryDemo LinkProof DseDemo VStackProof DseProps BlockProps.
From Coq Require Import ZifyBool.
Import ListNotations.
Open Scope Z_scope.

(** C09. For every instruction list: an instruction carries a section head exactly when it is an entry
    (the first live instruction, a reachable JUMPDEST, or right after an instruction that leaves its
    section), and the summary there is the deepest the section reaches below its start and the highest
    it rises above it, as long as these fit 16 bits unsigned and 16 bits signed. *)
Theorem C09_summary_exact dyn istanbul extra l k d : unsectioned l ->
  nth_error (construct_sections dyn istanbul extra l) k = Some d ->
  (f_head (d_flags d) = true <-> entry dyn istanbul l k) /\
  (entry dyn istanbul l k ->
     let section := sect dyn istanbul true (skipn k l) in
     section <> [] /\
     (deepest section 0 < 2 ^ 16 -> fst (d_stack_section d) = deepest section 0) /\
     (highest section 0 < 2 ^ 15 -> snd (d_stack_section d) = highest section 0)).
Proof.
  intros U H.
  assert (IO : Forall io_ok l) by (eapply Forall_impl; [|exact U]; intros a (_ & _ & _ & A & B); split; assumption).
  assert (FR : forall i d, nth_error l i = Some d -> f_head (d_flags d) = false).
  { intros i e He. unfold unsectioned in U. rewrite Forall_forall in U. exact (proj1 (proj2 (U e (nth_error_In _ _ He)))). }
  split; [exact (head_iff dyn istanbul extra l IO FR k d H)|]. intros EN. cbn zeta.
  destruct (head_exact dyn istanbul extra l k d IO EN H) as (_ & ->). cbn [fst snd]. split; [|lia].
  destruct EN as (e & He & De & _). rewrite (SectionsProof.skipn_cons l k e He), sect_live by exact De. discriminate.
Qed.
Print Assumptions C09_summary_exact.

(** A line with a dead instruction and two sections: PUSH0 PUSH0 MSTORE GAS | POP STOP. *)
Definition ex_line : list idata :=
  map (fun '(op, io) => mkD op no_flags 3 io 0 false 0 0 (0, 0))
    [(0x5f, (0, 1)); (0x5f, (0, 1)); (0x52, (2, 0)); (0x5a, (0, 1)); (0x50, (1, 0)); (0x50, (1, 0)); (0x00, (0, 0))].
Example C09_ex : unsectioned ex_line /\
  map (fun d => (f_head (d_flags d), d_stack_section d)) (construct_sections false true (fun _ => 0) ex_line) =
  [(true, (0, 2)); (false, (0, 0)); (false, (0, 0)); (false, (0, 0)); (true, (2, 0)); (false, (0, 0)); (false, (0, 0))].
Proof. split; [repeat constructor; cbn; lia|reflexivity]. Qed.

(** A bytecode of at most 10879 bytes with the stack effects the EVM has. *)
Definition small_loaded info stack_io key lim code env prog : Prop :=
  loaded info stack_io key lim code env prog /\ (forall op, evm_effect (stack_io op)) /\ Z.of_nat (length code) <= SMALL.

Section Small.
  Context (info : Z -> opinfo) (stack_io : Z -> Z * Z) (key : Z -> Z) (lim : Z) (code : list Z) (env : aenv) (prog : list idata).
  Hypothesis L : small_loaded info stack_io key lim code env prog.

  Lemma small_refresh p : analyze env prog = Some p -> exists p0, refresh_cfg p0 = Some p.
  Proof.
    unfold analyze. destruct (analyze_local env _) as [q|]; [|discriminate]. unfold analyze_global. destruct (block_analysis env q _) as [q1|]; [|discriminate]. eauto.
  Qed.
  Lemma small_length : Z.of_nat (length prog) <= SMALL + 1.
  Proof. destruct L as ((TK & B & LEN & KEY & LD) & EFF & SM). pose proof (loaded_length info stack_io code key lim EFF env prog LD). lia. Qed.
  Lemma small_dse inspect p : analyze env prog = Some p -> exists p', dead_store_elim inspect (a_const env) p = Some p'.
  Proof.
    intros AN. destruct (small_refresh p AN) as (p0 & RF). apply (C18_pass_total_partial inspect (a_const env) p0 p RF).
    intros bl l IN IT. destruct L as ((TK & B & LEN & KEY & LD) & EFF & SM).
    destruct (analysed_items info stack_io code key lim TK EFF B LEN env prog LD p AN bl l IN IT) as (A1 & A2 & A3 & A4).
    split; [exact A1|]. split; [exact A2|]. pose proof small_length. apply small_exact; [exact A3|]. rewrite map_length. lia.
  Qed.
  Lemma small_after inspect p p' : analyze env prog = Some p -> dead_store_elim inspect (a_const env) p = Some p' ->
    length (b_insts p') = length (b_insts p) /\ b_dyn p' = b_dyn p /\
    forall i d', nth_error (b_insts p') i = Some d' -> exists d, nth_error (b_insts p) i = Some d /\
      (d' = d \/ d' = set_noop d /\ is_branching d = false) /\ evm_effect (d_io d') /\ f_head (d_flags d') = false /\ d_gas_section d' = 0.
  Proof.
    intros AN DE. destruct (small_refresh p AN) as (p0 & RF).
    destruct (C18_marks_only_stack_instructions inspect (a_const env) p0 p p' RF DE) as (LL & OT & HM). split; [exact LL|].
    split; [specialize (OT []); exact (eq_sym (f_equal b_dyn OT))|]. intros i d' H'.
    destruct (nth_error (b_insts p) i) as [d|] eqn:H; [|apply nth_error_None in H; assert ((i < length (b_insts p'))%nat) by (apply nth_error_Some; congruence); lia].
    exists d. split; [reflexivity|]. destruct L as ((TK & B & LEN & KEY & LD) & EFF & SM).
    destruct (analysed_effect info stack_io code key lim EFF B env prog LD p AN i d H) as (A1 & A2 & A3 & A4).
    destruct (HM i d d' H H') as [->|(-> & _ & _ & NB & _)]; auto 6.
  Qed.
  Lemma small_io inspect p p' : analyze env prog = Some p -> dead_store_elim inspect (a_const env) p = Some p' -> Forall io_ok (b_insts p').
  Proof.
    intros AN DE. apply Forall_forall. intros d Hd. apply In_nth_error in Hd as (i & Hi).
    destruct (small_after inspect p p' AN DE) as (_ & _ & H). destruct (H i d Hi) as (_ & _ & _ & ((A & _) & B & _) & _). split; assumption.
  Qed.
  Lemma small_fits inspect p p' istanbul dyn : analyze env prog = Some p -> dead_store_elim inspect (a_const env) p = Some p' ->
    forall k, deepest (sect dyn istanbul true (skipn k (b_insts p'))) 0 < 2 ^ 16 /\ highest (sect dyn istanbul true (skipn k (b_insts p'))) 0 < 2 ^ 15.
  Proof.
    intros AN DE k. destruct (small_after inspect p p' AN DE) as (L1 & _ & H).
    destruct L as ((TK & B & LEN & KEY & LD) & EFF & SM). destruct (loaded_keeps info stack_io code key lim env prog LD p AN) as ([LP _] & _).
    destruct (sect_sub dyn istanbul (skipn k (b_insts p')) true) as (S1 & S2). pose proof small_length.
    apply small_exact; [|rewrite skipn_length, L1, LP in S1; lia].
    apply S2. apply Forall_forall. intros x Hx. apply in_map_iff in Hx as (d & <- & Hd). apply In_nth_error in Hd as (j & Hj). rewrite nth_skipn in Hj.
    destruct (H _ d Hj) as (_ & _ & _ & E & _). exact E.
  Qed.

  (** C09 for contracts: the passes do not panic and every summary of the final list is exact. *)
  Theorem C09_contracts_partial inspect istanbul extra : exists p p', analyze env prog = Some p /\ dead_store_elim inspect (a_const env) p = Some p' /\
    forall k d, nth_error (construct_sections (b_dyn p') istanbul extra (b_insts p')) k = Some d ->
      if f_head (d_flags d)
      then d_stack_section d = (deepest (sect (b_dyn p') istanbul true (skipn k (b_insts p'))) 0, highest (sect (b_dyn p') istanbul true (skipn k (b_insts p'))) 0)
      else ~ entry (b_dyn p') istanbul (b_insts p') k.
  Proof.
    assert (T : exists p, analyze env prog = Some p).
    { destruct L as ((TK & B & LEN & KEY & LD) & _). destruct (C15_total info stack_io key lim code TK B LEN KEY) as (e & pr & p & L1 & L2). rewrite LD in L1. injection L1 as <- <-. eauto. }
    destruct T as (p & AN). destruct (small_dse inspect p AN) as (p' & DE). exists p, p'. split; [exact AN|]. split; [exact DE|]. intros k d H.
    destruct (small_after inspect p p' AN DE) as (_ & _ & HA).
    pose proof (small_io inspect p p' AN DE) as IO.
    assert (FR : forall i d, nth_error (b_insts p') i = Some d -> f_head (d_flags d) = false) by (intros i e He; destruct (HA i e He) as (_ & _ & _ & _ & X & _); exact X).
    pose proof (head_iff (b_dyn p') istanbul extra (b_insts p') IO FR k d H) as HI.
    destruct (f_head (d_flags d)) eqn:F; [|intros E; apply HI in E; discriminate].
    destruct (head_exact (b_dyn p') istanbul extra (b_insts p') k d IO (proj1 HI eq_refl) H) as (_ & ->).
    destruct (small_fits inspect p p' istanbul (b_dyn p') AN DE k) as (F1 & F2). f_equal; lia.
  Qed.
End Small.
Print Assumptions C09_contracts_partial.

Lemma demo_effects op : evm_effect (demo_io op).
Proof.
  unfold evm_effect, demo_io. repeat match goal with |- context [if ?b then _ else _] => destruct b eqn:? end; cbn [fst snd]; lia.
Qed.
Lemma demo_loaded code : Forall is_byte code -> Z.of_nat (length code) < 2 ^ 31 -> exists env prog, loaded demo_info demo_io (fun v => v) 1000000 code env prog.
Proof.
  intros B LEN. destruct (C15_total demo_info demo_io (fun v => v) 1000000 code demo_tables_ok B LEN) as (env & prog & _ & LD & _); [auto|].
  exists env, prog. split; [exact demo_tables_ok|]. split; [exact B|]. split; [exact LEN|]. split; [auto|exact LD].
Qed.
Example C09_contracts_ex : exists env prog, small_loaded demo_info demo_io (fun v => v) 1000000 [0x5b; 0x34; 0x80; 0x50; 0x5f; 0x52; 0x34; 0x00] env prog.
Proof.
  destruct (demo_loaded [0x5b; 0x34; 0x80; 0x50; 0x5f; 0x52; 0x34; 0x00]) as (env & prog & LD); [repeat constructor; unfold is_byte; lia|reflexivity|].
  exists env, prog. split; [exact LD|]. split; [exact demo_effects|]. unfold SMALL. cbn. lia.
Qed.

(** Finding F4. There is a contract the runtime compiles (at most 24 KiB) on which a summary is not what
    its section needs and dead store elimination panics: 10923 LOG4 and one DUP1. *)
Theorem C09_refuted : exists code env prog p,
  should_compile default_max_len code = true /\ loaded demo_info demo_io (fun v => v) 1000000 code env prog /\ analyze env prog = Some p /\
  (forall inspect imm, dead_store_elim inspect imm p = None) /\
  (forall istanbul extra d, nth_error (construct_sections (b_dyn p) istanbul extra (b_insts p)) 0 = Some d ->
     f_head (d_flags d) = true /\ fst (d_stack_section d) < deepest (sect (b_dyn p) istanbul true (b_insts p)) 0).
Proof.
  assert (NN : exists n, Z.of_nat n = 10923) by (exists (Z.to_nat 10923); apply Z2Nat.id; discriminate). destruct NN as (n & N).
  assert (LC : Z.of_nat (length (logs_code n)) = 10924) by (unfold logs_code; rewrite app_length, repeat_length; cbn [length]; lia).
  assert (B : Forall is_byte (logs_code n)).
  { unfold logs_code. apply Forall_app. split; [|constructor; [unfold is_byte; lia|constructor]]. clear. induction n; cbn; constructor; auto. unfold is_byte. lia. }
  destruct (demo_loaded (logs_code n) B) as (env & prog & LD); [rewrite LC; reflexivity|].
  destruct (C15_total demo_info demo_io (fun v => v) 1000000 (logs_code n) demo_tables_ok B) as (e & pr & p & L1 & AN); [rewrite LC; reflexivity|auto|].
  assert (X : e = env /\ pr = prog) by (destruct LD as (_ & _ & _ & _ & X); rewrite X in L1; injection L1 as <- <-; auto). destruct X as [-> ->].
  exists (logs_code n), env, prog, p. split; [unfold should_compile, default_max_len; rewrite LC; reflexivity|]. split; [exact LD|]. split; [exact AN|].
  destruct (loaded_keeps demo_info demo_io (logs_code n) (fun v => v) 1000000 env prog L1 p AN) as (K & DS & BL).
  assert (PR : prog = logs_prog n).
  { unfold load in L1. rewrite logs_parse in L1. rewrite <- logs_insts. congruence. }
  rewrite PR in K. split; [intros inspect imm; apply (logs_dse n p K DS BL); lia|].
  intros istanbul extra d Hd.
  assert (IO : Forall io_ok (b_insts p)).
  { apply Forall_forall. intros x Hx. apply In_nth_error in Hx as (i & Hi).
    destruct (analysed_effect demo_info demo_io (logs_code n) (fun v => v) 1000000 demo_effects B env prog L1 p AN i x Hi) as (((A & _) & C & _) & _). split; assumption. }
  destruct (nth_error (b_insts p) 0) as [d0|] eqn:H0; [|apply nth_error_None in H0; rewrite (proj1 K), logs_length in H0; lia].
  assert (EN : entry (b_dyn p) istanbul (b_insts p) 0) by (exists d0; split; [exact H0|]; split; [exact (logs_live n p K DS 0 d0 H0)|right; exact Logic.I]).
  destruct (head_exact (b_dyn p) istanbul extra (b_insts p) 0 d IO EN Hd) as (HH & ->). split; [exact HH|]. cbn [fst].
  change (skipn 0 (b_insts p)) with (b_insts p). rewrite (logs_sect n p K DS (b_dyn p) istanbul).
  rewrite logs_deepest. change (2 ^ 16) with 65536. lia.
Qed.
Print Assumptions C09_refuted.

(** What the passes establish about a block as the code generator reads it. *)
Lemma contract_parts {W} info stack_io key lim code env prog inspect istanbul extra p p' bl l l' (vs : list (vinst W)) :
  small_loaded info stack_io key lim code env prog -> analyze env prog = Some p -> dead_store_elim inspect (a_const env) p = Some p' ->
  let P := construct_sections (b_dyn p') istanbul extra (b_insts p') in
  In bl (b_blocks p) -> items_at (a_const env) p (blk_insts bl) = Some l -> items_at (a_const env) p' (blk_insts bl) = Some l' ->
  Forall2 lowered l' vs ->
  (forall k v, nth_error vs k = Some v -> exists d, nth_error P (bk_start bl + k) = Some d /\ headed d v /\ leaves_by_opcode d v) ->
  (exists ds, dse_block inspect l = Some ds /\ l' = remark l ds) /\ Forall item_ok l /\ representable l /\ heads_ok l vs /\
  ends_ok (map unmark vs) true /\ fits 0 0 0 vs /\ starts_head vs /\
  (forall d, nth_error P (bk_end bl) = Some d -> is_dead d = false -> f_head (d_flags d) = true).
Proof.
  intros SL AN DE P IN IL IL' LO HD.
  destruct (small_refresh env prog p AN) as (p0 & RF). pose proof IL' as IL'2.
  destruct (small_after _ _ _ _ _ _ _ SL inspect p p' AN DE) as (LL & DY & HA).
  pose proof (small_io _ _ _ _ _ _ _ SL inspect p p' AN DE) as IO.
  pose proof (small_fits _ _ _ _ _ _ _ SL inspect p p' istanbul (b_dyn p') AN DE) as FT.
  assert (FR : forall i d, nth_error (b_insts p') i = Some d -> f_head (d_flags d) = false) by (intros i e He; destruct (HA i e He) as (_ & _ & _ & _ & X & _); exact X).
  destruct SL as ((TK & B & LEN & KEY & LD) & EFF & SM).
  destruct (loaded_keeps info stack_io code key lim env prog LD p AN) as ([LP _] & DS & BL).
  destruct (analysed_items info stack_io code key lim TK EFF B LEN env prog LD p AN bl l IN IL) as (I1 & I2 & I3 & I4).
  assert (DS' : dead_struct (b_insts p')).
  { destruct DS as [D0 D1]. split.
    - intros d' H'. destruct (HA 0%nat d' H') as (d & H & [->|(-> & _)] & _); [eauto|]. exact (D0 d H).
    - intros k a a1 H0 H1 X. destruct (HA _ _ H0) as (e0 & E0 & R0 & _). destruct (HA _ _ H1) as (e1 & E1 & R1 & _).
      assert (X1 : is_dead e1 = true) by (destruct R1 as [->|(-> & _)]; exact X).
      destruct (D1 k e0 e1 E0 E1 X1) as [Y|Y]; [left|right]; destruct R0 as [->|(-> & _)]; exact Y. }
  (* the leaders, hence the ranges, are those before the pass *)
  assert (RG : ranges (b_dyn p') (b_insts p') = ranges (b_dyn p) (b_insts p)).
  { rewrite DY. apply ranges_ext; [exact LL|]. intros i d' H'. destruct (HA i d' H') as (d & H & [->|(-> & _)] & _); exists d; repeat (split; [solve [auto]|]); reflexivity. }
  assert (R : In (bk_start bl, bk_end bl) (ranges (b_dyn p') (b_insts p'))).
  { rewrite RG. rewrite BL in IN. unfold blocks_of in IN. apply in_map_iff in IN as (r0 & <- & Hr). cbn. rewrite <- surjective_pairing. exact Hr. }
  destruct (ranges_spec (b_dyn p') (b_insts p') DS') as (WF & CH & _).
  pose proof (CH _ R) as CHR. cbn [fst snd] in CHR. destruct (In_nth_error _ _ R) as (bi & Hbi). destruct (wf_ranges_nth _ _ _ _ _ WF Hbi) as (W1 & W2). cbn [fst snd] in W1, W2.
  unfold blk_insts in IL'. apply items_spec in IL' as (LL' & HL'). assert (LV : length l' = length vs) by (clear -LO; induction LO; cbn; congruence).
  assert (READS : forall (vs2 : list (vinst W)) k l2, Forall2 lowered l2 vs2 -> (forall j, (j < length vs2)%nat -> nth_error l2 j = item_at (a_const env) p' (bk_start bl + k + j)) ->
             (forall j v, nth_error vs2 j = Some v -> exists d, nth_error P (bk_start bl + k + j) = Some d /\ headed d v /\ leaves_by_opcode d v) ->
             (bk_start bl + k + length vs2 <= bk_end bl)%nat -> LinkProof.reads (b_dyn p') istanbul extra (b_insts p') (bk_start bl + k) vs2).
  { induction vs2 as [|v vs2 IHv]; intros k l2 L2 HI HV BD; cbn [LinkProof.reads]; [exact Logic.I|]. inversion L2 as [|t ? l3 ? LT L3]; subst. cbn [length] in *. split.
    - specialize (HI 0%nat ltac:(lia)). cbn [nth_error] in HI. rewrite Nat.add_0_r in HI. unfold item_at in HI.
      destruct (nth_error (b_insts p') (bk_start bl + k)) as [d|] eqn:Hd; [|discriminate]. injection HI as ->.
      destruct (HV 0%nat v eq_refl) as (d' & Hd' & HH & _). rewrite Nat.add_0_r in Hd'. destruct LT as (A1 & A2 & _). cbn [it_d] in A1, A2.
      destruct (CHR (bk_start bl + k)%nat ltac:(cbn; lia)) as (d2 & Hd2 & D2 & _). rewrite Hd in Hd2. injection Hd2 as <-.
      exists d, d'. split; [reflexivity|]. split; [exact D2|]. split; [exact Hd'|]. split; [exact HH|]. split; assumption.
    - replace (S (bk_start bl + k)) with (bk_start bl + S k)%nat by lia. apply (IHv (S k) l3 L3).
      + intros j Hj. specialize (HI (S j) ltac:(lia)). cbn [nth_error] in HI. rewrite HI. f_equal. lia.
      + intros j v' Hj. specialize (HV (S j) v' Hj). replace (bk_start bl + S k + j)%nat with (bk_start bl + k + S j)%nat by lia. exact HV.
      + lia. }
  assert (RD : LinkProof.reads (b_dyn p') istanbul extra (b_insts p') (bk_start bl) vs).
  { rewrite <- (Nat.add_0_r (bk_start bl)). apply (READS vs 0%nat l' LO).
    - intros j Hj. rewrite Nat.add_0_r. apply HL'. lia.
    - intros j v Hj. rewrite Nat.add_0_r. exact (HD j v Hj).
    - lia. }
  pose proof (block_entry (b_dyn p') istanbul extra (b_insts p') FR (fun k _ => FT k) DS' _ R) as EN. cbn [fst] in EN.
  assert (NL : no_lead (b_dyn p') (b_insts p') (bk_start bl) (length vs)).
  { intros j Hj. destruct (CHR (j - 1)%nat ltac:(cbn; lia)) as (d & _ & _ & X). destruct (X ltac:(cbn; lia)) as (_ & Y). replace (S (j - 1)) with j in Y by lia. exact Y. }
  assert (ITS : forall j t, nth_error l j = Some t -> exists d, nth_error (b_insts p') (bk_start bl + j) = Some d /\ ends_here (it_d t) = ends_here d).
  { unfold blk_insts in IL. apply items_spec in IL as (L0 & H0). intros j t Hj. assert (J : (j < length l)%nat) by (apply nth_error_Some; congruence).
    rewrite H0 in Hj by lia. unfold item_at in Hj. destruct (nth_error (b_insts p) (bk_start bl + j)) as [d|] eqn:Hd; [|discriminate]. injection Hj as <-. cbn [it_d].
    destruct (nth_error (b_insts p') (bk_start bl + j)) as [d'|] eqn:Hd'; [|apply nth_error_None in Hd'; lia]. exists d'. split; [reflexivity|].
    destruct (HA _ _ Hd') as (d2 & H2 & Q & _). rewrite Hd in H2. injection H2 as <-. destruct Q as [->|(-> & _)]; reflexivity. }
  pose proof (reads_heads (b_dyn p') istanbul extra (b_insts p') IO FR (fun k _ => FT k) vs (bk_start bl) l RD NL ITS) as HEADS.
  assert (ENDS : ends_ok (map unmark vs) true).
  { apply (reads_ends (b_dyn p') istanbul extra (b_insts p') IO FR (fun k _ => FT k) vs (bk_start bl) RD).
    intros j v Hj. destruct (HD j v Hj) as (d' & Hd' & _ & LB). destruct (nth_error (b_insts p') (bk_start bl + j)) as [d|] eqn:Hd.
    - exists d. split; [reflexivity|]. intros X. specialize (LB X). rewrite (sections_op (b_dyn p') istanbul extra (b_insts p') IO _ d d' Hd Hd') in LB. exact LB.
    - exfalso. unfold P in Hd'. rewrite construct_sections_go in Hd' by exact IO. rewrite go_nth, Hd in Hd'. discriminate. }
  assert (FIT : fits 0 0 0 vs).
  { apply (reads_fits (b_dyn p') istanbul extra (b_insts p') IO FR (fun k _ => FT k) vs (bk_start bl) 0 0 0 RD). intros d _ _. left. exact EN. }
  assert (SH : starts_head vs).
  { destruct vs as [|v vs]; [cbn in LV; lia|]. exact (reads_starts (b_dyn p') istanbul extra (b_insts p') IO FR v vs (bk_start bl) RD EN). }
  assert (RE : representable l).
  { pose proof (loaded_length info stack_io code key lim EFF env prog LD). apply small_exact; [exact I3|]. rewrite map_length. lia. }
  split.
  { destruct (dse_blocks_spec inspect (a_const env) (b_blocks p) 0 p p' (refresh_blocks _ _ RF) DE) as (_ & _ & B0).
    destruct (B0 bl IN) as (l0 & ds & E1 & E2 & E3). rewrite IL in E1. injection E1 as <-. rewrite IL'2 in E3. injection E3 as ->. eauto. }
  split; [exact I1|]. split; [exact RE|]. split; [exact HEADS|]. split; [exact ENDS|]. split; [exact FIT|]. split; [exact SH|].
  intros d Hd DD. apply (head_iff (b_dyn p') istanbul extra (b_insts p') IO FR _ d Hd).
    destruct (nth_error (b_insts p') (bk_end bl)) as [e|] eqn:He.
    + apply (block_follow (b_dyn p') istanbul extra (b_insts p') FR (fun k _ => FT k) DS' (bk_start bl, bk_end bl) e R He).
      rewrite <- (sections_dead (b_dyn p') istanbul extra (b_insts p') IO _ e d He Hd). exact DD.
    + exfalso. unfold P in Hd. rewrite construct_sections_go in Hd by exact IO. rewrite go_nth, He in Hd. discriminate.
Qed.

(** C18 and C19 from bytecode to compiled block. Nothing is assumed of sections or summaries here: they
    are the ones the passes compute. [vs] is the block as the code generator reads it: its instructions
    after dead store elimination ([lowered]), its sections off the final list ([headed]); what follows a
    block is a section head (second part). *)
Theorem C18_contracts_partial {W} info stack_io key lim code env prog inspect istanbul extra p p' bl l l' (vs : list (vinst W)) w c st r :
  small_loaded info stack_io key lim code env prog -> analyze env prog = Some p -> dead_store_elim inspect (a_const env) p = Some p' ->
  let P := construct_sections (b_dyn p') istanbul extra (b_insts p') in
  In bl (b_blocks p) -> items_at (a_const env) p (blk_insts bl) = Some l -> items_at (a_const env) p' (blk_insts bl) = Some l' ->
  Forall aligned l -> Forall2 lowered l' vs -> Forall (fun v => inst_ok (unmark v)) vs ->
  (forall k v, nth_error vs k = Some v -> exists d, nth_error P (bk_start bl + k) = Some d /\ headed d v /\ leaves_by_opcode d v) ->
  in_memory c st -> facts_hold vs w st -> erun vs w st = Some r ->
  (match r with
   | EHalt w' => vrun vs true w c = Some (RHalt w')
   | ENext w' st' => exists c', vrun vs true w c = Some (RNext w' c') /\ in_memory c' st'
   end) /\
  (forall d, nth_error P (bk_end bl) = Some d -> is_dead d = false -> f_head (d_flags d) = true).
Proof.
  intros SL AN DE P IN IL IL' AL LO OK HD IM FA ER.
  destruct (contract_parts info stack_io key lim code env prog inspect istanbul extra p p' bl l l' vs SL AN DE IN IL IL' LO HD) as ((ds & DB & ->) & I1 & RE & HEADS & ENDS & FIT & SH & NX).
  split; [|exact NX]. pose proof (block_ok inspect l ds vs true w c st r DB I1 AL RE LO OK HEADS ENDS FIT SH IM FA ER) as X.
  destruct r as [w'|w' st']; [exact X|]. destruct X as (c' & X1 & X2 & _). exists c'. split; [exact X1|]. apply X2. reflexivity.
Qed.
Print Assumptions C18_contracts_partial.

(** The code of [C18_ex]: the block as compiled has its section where the passes put it. *)
Definition heads_b (code : list Z) (inspect istanbul : bool) (extra : nat -> Z) (start : nat) : bool :=
  match load demo_info demo_io (fun v => v) 1000000 code with
  | Some (env, prog) =>
    match analyze env prog with
    | Some p =>
      match dead_store_elim inspect (a_const env) p with
      | Some p' =>
        forallb (fun bl =>
          match items_at (a_const env) p' (blk_insts bl) with
          | Some l' =>
            let P := construct_sections (b_dyn p') istanbul extra (b_insts p') in
            let vs := low_block l' in
            forallb (fun k =>
              match nth_error vs k, nth_error P (bk_start bl + k) with
              | Some v, Some d =>
                negb (leaves (vi_body v)) &&
                match vi_head v with
                | Some (a, b) => f_head (d_flags d) && (a =? Z.to_nat (fst (d_stack_section d)))%nat && (b =? Z.to_nat (snd (d_stack_section d)))%nat
                | None => negb (f_head (d_flags d))
                end
              | _, _ => false
              end) (seq 0 (length vs))
          | None => false
          end) (filter (fun bl => bk_start bl =? start)%nat (b_blocks p))
      | None => false
      end
    | None => false
    end
  | None => false
  end.
Lemma heads_run : heads_b ex_code false true (fun _ => 0) 0 = true.
Proof. vm_compute. reflexivity. Qed.
Example C18_contracts_ex : exists env prog p p' bl l l' vs,
  small_loaded demo_info demo_io (fun v => v) 1000000 ex_code env prog /\ analyze env prog = Some p /\ dead_store_elim false (a_const env) p = Some p' /\
  In bl (b_blocks p) /\ items_at (a_const env) p (blk_insts bl) = Some l /\ items_at (a_const env) p' (blk_insts bl) = Some l' /\
  Forall aligned l /\ Forall2 lowered l' vs /\ Forall (fun v => inst_ok (unmark v)) vs /\
  (forall k v, nth_error vs k = Some v -> exists d, nth_error (construct_sections (b_dyn p') true (fun _ => 0) (b_insts p')) (bk_start bl + k) = Some d /\ headed d v /\ leaves_by_opcode d v) /\
  in_memory (cx_of []) [] /\ facts_hold vs [] [] /\ erun vs [] [] = Some (EHalt [0; 1000]).
Proof.
  destruct (demo_spec _ _ _ _ _ _ _ ex_run) as (env & prog & p0 & p & p' & bl & l & l' & vs & H1 & H2 & H3 & H4 & H5 & HS & H6 & H7 & H8 & H9 & H10 & H11 & H12 & H13 & H14 & H15 & H16 & H17 & H18 & _ & H19 & _ & VS).
  exists env, prog, p, p', bl, l, l', vs.
  assert (SL : small_loaded demo_info demo_io (fun v => v) 1000000 ex_code env prog).
  { split; [split; [exact demo_tables_ok|split; [repeat constructor; unfold is_byte; lia|split; [reflexivity|split; [auto|exact H1]]]]|]. split; [exact demo_effects|]. cbn. unfold SMALL. lia. }
  split; [exact SL|]. do 5 (split; [assumption|]). split; [apply H18; reflexivity|]. do 2 (split; [assumption|]).
  split; [|auto]. intros k v Hk. pose proof heads_run as HR. unfold heads_b in HR. rewrite H1, H2, H4 in HR. rewrite forallb_forall in HR.
  specialize (HR bl). rewrite filter_In in HR. specialize (HR (conj H5 (proj2 (Nat.eqb_eq _ _) HS))). rewrite H7 in HR. cbn zeta in HR. rewrite forallb_forall in HR.
  assert (K : (k < length vs)%nat) by (apply nth_error_Some; congruence). subst vs. specialize (HR k (proj2 (in_seq _ _ _) (conj (Nat.le_0_l _) K))).
  change Wd with (list Z) in HR. rewrite Hk in HR. destruct (nth_error (construct_sections _ _ _ _) (bk_start bl + k)) as [d|]; [|discriminate]. exists d. split; [reflexivity|].
  apply andb_prop in HR as [NL HR]. split; [|intros X; rewrite X in NL; discriminate]. unfold headed.
  destruct (vi_head v) as [[a b]|].
  - apply andb_prop in HR as [HR HB]. apply andb_prop in HR as [HF HA]. rewrite HF. apply Nat.eqb_eq in HA, HB. congruence.
  - destruct (f_head (d_flags d)); [discriminate|reflexivity].
Qed.
