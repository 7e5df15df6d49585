(** What the block analysis leaves alone: opcodes, stack effects, gas, section data and the shape of
    dead regions, whatever the executions of the program. *)
From Verif Require Import BlockModel FlowSpec CfgProof CommitProof.
Open Scope Z_scope.

Definition keeps (d0 d : idata) : Prop :=
  d_op d = d_op d0 /\ d_io d = d_io d0 /\ d_data d = d_data d0 /\ d_gas d = d_gas d0 /\
  d_gas_section d = d_gas_section d0 /\ d_stack_section d = d_stack_section d0 /\
  f_disabled (d_flags d) = f_disabled (d_flags d0) /\ f_unknown (d_flags d) = f_unknown (d_flags d0) /\
  f_noop (d_flags d) = f_noop (d_flags d0) /\ f_head (d_flags d) = f_head (d_flags d0) /\
  (f_constcond (d_flags d0) = true -> f_constcond (d_flags d) = true).
Definition kept_list (l0 l : list idata) : Prop :=
  length l = length l0 /\ forall i d, nth_error l i = Some d -> exists d0, nth_error l0 i = Some d0 /\ keeps d0 d.

Lemma keeps_refl d : keeps d d. Proof. repeat split; auto. Qed.
Lemma keeps_trans a b c : keeps a b -> keeps b c -> keeps a c.
Proof. unfold keeps. intuition congruence. Qed.
Lemma keeps_same d0 d : keeps d0 d -> same d0 d.
Proof. unfold keeps, same. intuition. Qed.
Lemma keeps_fall d0 d : keeps d0 d -> can_fall_through d0 = false -> can_fall_through d = false.
Proof.
  intros K H. destruct (keeps_same _ _ K) as (E1 & _ & E3 & E4 & _). destruct K as (_ & _ & _ & _ & _ & _ & _ & _ & _ & _ & C).
  unfold can_fall_through, is_diverging, has_const_jumpi_condition in *. rewrite E1, E3, E4.
  destruct (d_op d0 =? OP_JUMP); destruct (d_op d0 =? OP_JUMPI); destruct (f_constcond (d_flags d0)), (f_constcond (d_flags d));
    try (specialize (C eq_refl)); revert H; cbn; auto; try discriminate; rewrite ?andb_true_r, ?andb_false_r; auto; try (intros ->; reflexivity).
Qed.
Lemma kept_refl l : kept_list l l.
Proof. split; [reflexivity|]. intros i d H. exists d. split; [exact H|apply keeps_refl]. Qed.
Lemma kept_trans a b c : kept_list a b -> kept_list b c -> kept_list a c.
Proof.
  intros [L1 H1] [L2 H2]. split; [congruence|]. intros i d H. destruct (H2 i d H) as (e & He & K).
  destruct (H1 i e He) as (f & Hf & K'). exists f. split; [exact Hf|eapply keeps_trans; eauto].
Qed.

(** The two facts carried through the analysis. *)
Definition well (l0 : list idata) (p : bc) : Prop := kept_list l0 (b_insts p) /\ dead_struct (b_insts p).

Lemma dead_struct_keep l l' : dead_struct l -> length l' = length l ->
  (forall i d', nth_error l' i = Some d' -> exists d, nth_error l i = Some d /\ keeps d d' /\ is_dead d' = is_dead d) -> dead_struct l'.
Proof.
  intros [D0 DS] L H. split.
  - intros d' Hn. destruct (H _ _ Hn) as (d & Hd & _ & ->). eauto.
  - intros k d d1 H0 H1 X. destruct (H _ _ H0) as (e0 & E0 & K0 & Q0). destruct (H _ _ H1) as (e1 & E1 & K1 & Q1).
    rewrite Q1 in X. destruct (DS _ _ _ E0 E1 X) as [Y|Y]; [left; congruence|right; eapply keeps_fall; eauto].
Qed.
Lemma well_pointwise l0 p p' : well l0 p -> length (b_insts p') = length (b_insts p) ->
  (forall i d', nth_error (b_insts p') i = Some d' -> exists d, nth_error (b_insts p) i = Some d /\ keeps d d' /\ is_dead d' = is_dead d) ->
  well l0 p'.
Proof.
  intros [K DS] L H. split; [|eapply dead_struct_keep; eauto]. eapply kept_trans; [exact K|]. split; [exact L|].
  intros i d X. destruct (H i d X) as (e & He & Ke & _). eauto.
Qed.
Lemma upto_reach_keeps d d' : upto_reach d d' -> keeps d d' /\ is_dead d' = is_dead d.
Proof. intros [-> | [b ->]]; split; repeat split; auto. Qed.
Lemma well_recompute l0 p p' : well l0 p -> recompute_reachable p = Some p' -> well l0 p'.
Proof.
  intros WE E. destruct (recompute_reachable_shape _ _ E) as (L & P & _). eapply well_pointwise; eauto.
  intros i d' H. destruct (P i d' H) as (d & Hd & U). exists d. split; [exact Hd|apply upto_reach_keeps, U].
Qed.
Lemma well_mark l0 p l b : well l0 p -> mark_once (b_dyn p) None 0 (b_insts p) = (l, b) -> well l0 (with_insts p l).
Proof.
  intros [K DS] E. split; cbn; [|eapply dead_struct_marked; eauto]. eapply kept_trans; [exact K|].
  destruct (mark_once_spec _ _ _ _ _ _ E) as (L & P & _). split; [exact L|]. intros i d H. destruct (P i d H) as (e & He & U).
  exists e. split; [exact He|]. destruct U as [-> | ->]; [apply keeps_refl|repeat split; auto].
Qed.
Lemma well_mark_dead l0 fuel : forall p p', well l0 p -> mark_dead_code fuel p = Some p' -> well l0 p'.
Proof.
  induction fuel as [|f IH]; intros p p' WE E; cbn [mark_dead_code] in E;
    destruct (mark_once (b_dyn p) None 0 (b_insts p)) as [l b] eqn:Em; pose proof (well_mark _ _ _ _ WE Em) as W1.
  - destruct b; [discriminate|]. injection E as <-. exact W1.
  - destruct b; [|injection E as <-; exact W1]. destruct (recompute_reachable _) as [p2|] eqn:Er; [|discriminate].
    apply (IH p2 p'); [|exact E]. eapply well_recompute; [|exact Er]. exact W1.
Qed.
Lemma well_refresh l0 p p' : well l0 p -> refresh_cfg p = Some p' -> well l0 p' /\ b_blocks p' = blocks_of p'.
Proof.
  intros WE E. unfold refresh_cfg in E. destruct (recompute_reachable _) as [p1|] eqn:E1; [|discriminate].
  destruct (mark_dead_code _ p1) as [p2|] eqn:E2; [|discriminate]. unfold compress_redirects in E.
  destruct (compress _ _) as [r|]; [|discriminate]. injection E as <-. split; [|reflexivity].
  assert (W1 : well l0 p1) by (eapply well_recompute; [|exact E1]; exact WE). exact (well_mark_dead _ _ _ _ W1 E2).
Qed.

Lemma commit_one_keeps bot i r d m d' m' : commit_one bot i r d m = (d', m') -> keeps d d' /\ is_dead d' = is_dead d.
Proof.
  unfold commit_one. intros H.
  assert (E : d' = d \/ (exists a b c cc t, d' = set_target (commit_flags d a b c (f_constcond (d_flags d) || cc)) t)
                     \/ exists a b c cc, d' = commit_flags d a b c (f_constcond (d_flags d) || cc)).
  { destruct (f_static (d_flags d) && negb (cond_known (j_cond r))); [left; congruence|]. right.
    destruct (j_target r) as [|[|x [|y ts]]| |]; [destruct bot| | | | |]; injection H as <- _;
      solve [left; do 5 eexists; reflexivity|right; do 4 eexists; reflexivity]. }
  destruct E as [-> |[(a & b & c & cc & t & ->)|(a & b & c & cc & ->)]]; (split; [|reflexivity]); [apply keeps_refl| |];
    unfold keeps; cbn; repeat (split; [reflexivity|]); intros ->; reflexivity.
Qed.
Lemma well_commit_step l0 bot p ir : well l0 p -> well l0 (commit_step bot p ir).
Proof.
  destruct ir as [i r]. intros WE. destruct (nth_error (b_insts p) i) as [d|] eqn:Hn; [|unfold commit_step; now rewrite Hn].
  destruct (commit_step_insts bot p i r d Hn) as (d' & m' & Ec & _ & Hi & Ho & _ & EL). eapply well_pointwise; [exact WE|exact EL|].
  intros k dk Hk. destruct (Nat.eq_dec k i) as [->|N].
  - rewrite Hi in Hk. injection Hk as <-. exists d. split; [exact Hn|eapply commit_one_keeps; eauto].
  - rewrite (proj1 (Ho k N)) in Hk. exists dk. split; [exact Hk|]. split; [apply keeps_refl|reflexivity].
Qed.
Lemma well_commit l0 rs p p' : well l0 p -> commit_resolved rs p = Some p' -> well l0 p'.
Proof.
  intros WE E. unfold commit_resolved in E. eapply well_recompute; [|exact E]. clear E. generalize (existsb (fun ir => is_top (snd ir)) rs).
  intros bot. revert p WE. induction rs as [|ir rs IH]; intros p WE; cbn [fold_left]; [exact WE|]. apply IH, well_commit_step, WE.
Qed.
Lemma well_local l0 env p p' : well l0 p -> block_analysis_local env p = Some p' -> well l0 p'.
Proof.
  intros WE E. unfold block_analysis_local in E. destruct (fold_left _ _ _) as [rs [sn u]].
  destruct (commit_resolved rs _) as [q|] eqn:Ec; [|discriminate]. injection E as <-. change (well l0 q).
  eapply well_commit; [|exact Ec]. exact WE.
Qed.
Lemma well_global l0 env p loc p' : well l0 p -> block_analysis env p loc = Some p' -> well l0 p'.
Proof.
  intros WE E. unfold block_analysis in E. destruct (run_abstract_interp env p loc) as [[[rs sn] u]|]; [|discriminate].
  destruct (_ || _).
  - destruct (commit_resolved rs _) as [q|] eqn:Ec; [|discriminate]. injection E as <-. change (well l0 q). eapply well_commit; [|exact Ec]. exact WE.
  - injection E as <-. exact WE.
Qed.

(** After [analyze]: same instructions, dead regions only after something that does not fall through,
    and the blocks are those of the final list. *)
Lemma analyze_well env prog p : (forall i d, nth_error prog i = Some d -> is_dead d = false) -> analyze env prog = Some p ->
  kept_list prog (b_insts p) /\ dead_struct (b_insts p) /\ b_blocks p = blocks_of p.
Proof.
  intros LV E. assert (W0 : well prog (initial prog)).
  { split; [apply kept_refl|]. split; cbn.
    - intros d H. exact (LV 0%nat d H).
    - intros k d d1 _ H X. rewrite (LV (S k) d1 H) in X. discriminate. }
  unfold analyze in E. destruct (analyze_local env (initial prog)) as [q|] eqn:EL; [|discriminate].
  unfold analyze_local in EL. destruct (refresh_cfg (initial prog)) as [q1|] eqn:R1; [|discriminate].
  destruct (block_analysis_local env q1) as [q2|] eqn:BL; [|discriminate].
  unfold analyze_global in E. destruct (block_analysis env q (b_snaps q)) as [q3|] eqn:BG; [|discriminate].
  destruct (well_refresh _ _ _ W0 R1) as [W1 _]. pose proof (well_local _ _ _ _ W1 BL) as W2.
  destruct (well_refresh _ _ _ W2 EL) as [W3 _]. pose proof (well_global _ _ _ _ _ W3 BG) as W4.
  destruct (well_refresh _ _ _ W4 E) as [[W5 W6] W7]. auto.
Qed.
