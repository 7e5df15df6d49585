(** What [analyze] hands to deduplication: targets of live jumps are live, and so on ([binv]). *)
From Verif Require Import DedupModel FlowSpec CfgProof BlockProof LocalProof ProgramProof AnalysisProof DedupProof CommitProof StructProof DedupRedir DedupLive DedupBase BudgetSpec BudgetProof SimProof.
From Verif Require GlobalProof FixpointProof.
From Coq Require Import ZifyBool Permutation.
Open Scope Z_scope.

(** ** What the steps change. *)
Record rf (d d' : idata) : Prop := {
  rf_op : d_op d' = d_op d; rf_io : d_io d' = d_io d; rf_tgt : d_target d' = d_target d;
  rf_static : f_static (d_flags d') = f_static (d_flags d); rf_inv : f_invalid (d_flags d') = f_invalid (d_flags d);
  rf_multi : f_multi (d_flags d') = f_multi (d_flags d); rf_cc : f_constcond (d_flags d') = f_constcond (d_flags d);
  rf_dead : is_dead d = true -> is_dead d' = true
}.
Lemma rf_refl d : rf d d. Proof. constructor; auto. Qed.
Lemma rf_trans a b c : rf a b -> rf b c -> rf a c.
Proof. intros [] []; constructor; try congruence. auto. Qed.
Lemma rf_upto d d' : upto_reach d d' -> rf d d'.
Proof. intros [-> |[b ->]]; constructor; auto. Qed.
Definition rfl (l l' : list idata) : Prop := length l' = length l /\ forall k d', nth_error l' k = Some d' -> exists d, nth_error l k = Some d /\ rf d d'.
Lemma rfl_trans a b c : rfl a b -> rfl b c -> rfl a c.
Proof.
  intros [L1 H1] [L2 H2]. split; [congruence|]. intros k d' H. destruct (H2 k d' H) as (d & Hd & R). destruct (H1 k d Hd) as (e & He & R').
  exists e. split; [exact He|eapply rf_trans; eauto].
Qed.
Lemma rfl_upto l l' : length l' = length l -> (forall k d', nth_error l' k = Some d' -> exists d, nth_error l k = Some d /\ upto_reach d d') -> rfl l l'.
Proof. intros L H. split; [exact L|]. intros k d' Hk. destruct (H k d' Hk) as (d & Hd & U). exists d. split; [exact Hd|apply rf_upto, U]. Qed.
Lemma rfl_mark dyn l l' b : mark_once dyn None 0 l = (l', b) -> rfl l l'.
Proof.
  intros E. destruct (mark_once_spec _ _ _ _ _ _ E) as (L & P & _). split; [exact L|]. intros k d' H. destruct (P k d' H) as (d & Hd & U). exists d. split; [exact Hd|].
  destruct U as [-> | ->]; [apply rf_refl|constructor; auto].
Qed.
Lemma rfl_mark_dead fuel : forall p p', mark_dead_code fuel p = Some p' -> rfl (b_insts p) (b_insts p').
Proof.
  induction fuel as [|f IH]; intros p p' E; cbn [mark_dead_code] in E;
    destruct (mark_once (b_dyn p) None 0 (b_insts p)) as [l b] eqn:Em; pose proof (rfl_mark _ _ _ _ Em) as R1.
  - destruct b; [discriminate|]. injection E as <-. exact R1.
  - destruct b; [|injection E as <-; exact R1]. destruct (recompute_reachable _) as [p2|] eqn:Er; [|discriminate].
    destruct (recompute_reachable_shape _ _ Er) as (L & P & _). cbn in *. eapply rfl_trans; [exact R1|]. eapply rfl_trans; [apply rfl_upto; eassumption|]. apply IH, E.
Qed.
Lemma refresh_rfl p p' : refresh_cfg p = Some p' -> rfl (b_insts p) (b_insts p').
Proof.
  unfold refresh_cfg. destruct (recompute_reachable (recompute_dyn p)) as [p1|] eqn:E1; [|discriminate].
  destruct (recompute_reachable_shape _ _ E1) as (L & P & _). cbn in *. destruct (mark_dead_code _ p1) as [p2|] eqn:E2; [|discriminate].
  unfold compress_redirects. destruct (compress _ _); [|discriminate]. intros E. injection E as <-. cbn.
  eapply rfl_trans; [apply rfl_upto; eassumption|]. eapply rfl_mark_dead, E2.
Qed.
Lemma commit_fold_nth bot : forall rs p, NoDup (map fst rs) -> let p' := fold_left (commit_step bot) rs p in
  forall k, (~ In k (map fst rs) -> nth_error (b_insts p') k = nth_error (b_insts p) k) /\
    (forall r d, In (k, r) rs -> nth_error (b_insts p) k = Some d -> exists e m m', nth_error (b_insts p') k = Some e /\ commit_one bot k r d m = (e, m')).
Proof.
  induction rs as [|[i r0] rs IH]; intros p ND; cbv zeta; cbn [fold_left]; intros k; [split; [auto|intros r d []]|].
  inversion ND as [|? ? N ND']; subst. destruct (IH (commit_step bot p (i, r0)) ND' k) as [A B].
  assert (ST : k <> i -> nth_error (b_insts (commit_step bot p (i, r0))) k = nth_error (b_insts p) k).
  { intros Nk. destruct (nth_error (b_insts p) i) as [d|] eqn:Hi; [|unfold commit_step; rewrite Hi; reflexivity].
    destruct (commit_step_insts bot p i r0 d Hi) as (d' & m' & _ & _ & _ & Ho & _). apply (Ho k Nk). }
  split.
  - intros X. cbn in X. rewrite A by tauto. apply ST. intros ->. apply X. left. reflexivity.
  - intros r d [E|Hin] Hd.
    + injection E as -> ->. destruct (commit_step_insts bot p k r d Hd) as (d' & m' & Ec & _ & Hi & _). exists d', (b_multi p k), m'. rewrite A by exact N. auto.
    + apply B; [exact Hin|]. rewrite ST; [exact Hd|]. intros ->. apply N. apply in_map_iff. exists (i, r). auto.
Qed.
Lemma commit_nth rs p p' : NoDup (map fst rs) -> commit_resolved rs p = Some p' ->
  forall k d', nth_error (b_insts p') k = Some d' -> exists d, nth_error (b_insts p) k = Some d /\
    ((~ In k (map fst rs) /\ rf d d') \/ exists r e bot m m', In (k, r) rs /\ commit_one bot k r d m = (e, m') /\ rf e d').
Proof.
  intros ND E k d' Hk. unfold commit_resolved in E. destruct (recompute_reachable_shape _ _ E) as (L & P & _).
  destruct (P k d' Hk) as (e & He & U). apply rf_upto in U.
  set (bot := existsb (fun ir => is_top (snd ir)) rs) in *. destruct (commit_fold_nth bot rs p ND k) as [A B].
  destruct (in_dec Nat.eq_dec k (map fst rs)) as [I|N].
  - assert (Hd : exists d, nth_error (b_insts p) k = Some d).
    { apply nth_some. apply nth_lt in He. destruct (commit_keeps bot rs p) as [X _]. cbn in X. rewrite X in He. exact He. }
    destruct Hd as [d Hd]. exists d. split; [exact Hd|]. right. apply in_map_iff in I as ([k' r] & Ek & Hin). cbn in Ek. subst k'.
    destruct (B r d Hin Hd) as (e' & m & m' & He' & Ec). exists r, e', bot, m, m'. assert (e' = e) by congruence. subst e'. auto.
  - rewrite A in He by exact N. exists e. auto.
Qed.

(** ** The local analysis. *)
Section Local.
  Context (env : aenv) (p : bc).
  Hypothesis WF : wf_blocks p.
  Notation insts := (b_insts p).
  Definition lres (sn : snaps) (dn : list blk) (i : nat) (r : jres) : Prop := exists bl d t m u1 L uL,
    In bl dn /\ i = terminator bl /\ nth_error insts i = Some d /\ is_jump d = true /\ f_static (d_flags d) = false /\
    r = resolve_jump env insts sn i /\ j_target r = JResolved [t] /\
    astack env insts (seq (bk_start bl) (i - bk_start bl)) (repeat ATop m) u1 = Some (L, uL) /\
    (is_dead d = false -> (0 < Z.to_nat (fst (d_io d)))%nat -> sn_in sn i = rev (firstn (Z.to_nat (fst (d_io d))) L)).
  Lemma local_res : forall l dn rs sn u rs' sn' u', b_blocks p = dn ++ l ->
    fold_left (local_block env p) l (rs, (sn, u)) = (rs', (sn', u')) ->
    NoDup (map fst rs) -> (forall i r, In (i, r) rs -> lres sn dn i r) ->
    NoDup (map fst rs') /\ (forall i r, In (i, r) rs' -> lres sn' (dn ++ l) i r).
  Proof.
    induction l as [|bl l IH]; intros dn rs sn u rs' sn' u' EB H ND RS; cbn [fold_left] in H.
    - injection H as <- <- _. rewrite app_nil_r. auto.
    - destruct (local_block env p (rs, (sn, u)) bl) as [rs1 [sn1 u1]] eqn:E1.
      change (bl :: l) with ([bl] ++ l) in *. rewrite app_assoc in *.
      assert (Hb : nth_error (b_blocks p) (length dn) = Some bl).
      { rewrite EB, <- app_assoc. rewrite nth_error_app2 by lia. rewrite Nat.sub_diag. reflexivity. }
      assert (DJ : forall bl', In bl' dn -> terminator bl' <> terminator bl /\ ~ In (terminator bl') (blk_insts bl)).
      { intros bl' Hin. apply In_nth_error in Hin as [k Hk].
        assert (Hk' : nth_error (b_blocks p) k = Some bl').
        { rewrite EB, <- app_assoc. rewrite nth_error_app1 by (apply nth_lt in Hk; exact Hk). exact Hk. }
        pose proof (wf_order _ _ _ _ _ WF Hk' Hb (nth_lt _ _ _ Hk)) as O. pose proof (wf_block _ _ _ WF Hb) as B1. pose proof (wf_block _ _ _ WF Hk') as B2.
        unfold terminator, blk_insts. rewrite in_seq. lia. }
      pose proof (wf_block _ _ _ WF Hb) as BB.
      unfold local_block in E1.
      destruct (interp_block env insts (blk_insts bl) (repeat ATop (block_inputs insts bl)) sn u) as [[[ok stk] sn2] u2] eqn:Er.
      assert (SN : sn1 = sn2 /\ (rs1 = rs \/ exists d t, ok = true /\ rs1 = rs ++ [(terminator bl, resolve_jump env insts sn2 (terminator bl))] /\
         nth_error insts (terminator bl) = Some d /\ is_jump d = true /\ f_static (d_flags d) = false /\ j_target (resolve_jump env insts sn2 (terminator bl)) = JResolved [t])).
      { destruct (nth_error insts (terminator bl)) as [d|] eqn:Hd; [|rewrite andb_false_r in E1; injection E1 as <- <- _; auto].
        destruct (ok && (is_jump d && negb (f_static (d_flags d)))) eqn:Eo; [|injection E1 as <- <- _; auto].
        apply andb_true_iff in Eo as [Eo Ej]. apply andb_true_iff in Ej as [Ej Es]. apply negb_true_iff in Es.
        destruct (j_target (resolve_jump env insts sn2 (terminator bl))) as [|[|t [|t' ts]]| |] eqn:Et;
          injection E1 as <- <- _; split; try reflexivity; auto.
        right. exists d, t. auto 6. }
      destruct SN as [-> SN]. clear E1.
      assert (OLD : forall i r, In (i, r) rs -> lres sn2 (dn ++ [bl]) i r).
      { intros i r Hin. destruct (RS i r Hin) as (b0 & d & t & m & v1 & L & uL & X1 & X2 & X3 & X4 & X5 & X6 & X7 & X8 & X9).
        assert (U : sn_in sn2 i = sn_in sn i). { apply (interp_block_untouched _ _ _ _ _ _ _ _ _ _ Er). rewrite X2. apply DJ, X1. }
        exists b0, d, t, m, v1, L, uL. split; [apply in_or_app; left; exact X1|]. do 4 (split; [assumption|]).
        split; [rewrite X6; unfold resolve_jump; rewrite U; reflexivity|]. rewrite U. auto. }
      apply (IH (dn ++ [bl]) rs1 sn2 u1 rs' sn' u' EB H).
      + destruct SN as [-> |(d & t & _ & -> & _)]; [exact ND|]. rewrite map_app. cbn [map fst]. apply GlobalProof.NoDup_snoc; [exact ND|].
        intros Hin. apply in_map_iff in Hin as ([i r] & Ei & Hin). cbn in Ei. subst i.
        destruct (RS _ _ Hin) as (b0 & d0 & t0 & m & v1 & L & uL & X1 & X2 & _). destruct (DJ b0 X1) as [X _]. congruence.
      + intros i r Hin. destruct SN as [-> |(d & t & -> & -> & Hd & Hj & Hs & Ht)]; [apply OLD, Hin|].
        apply in_app_or in Hin as [Hin|[Hin|[]]]; [apply OLD, Hin|]. injection Hin as <- <-.
        assert (SP : blk_insts bl = seq (bk_start bl) (terminator bl - bk_start bl) ++ terminator bl :: []).
        { unfold blk_insts, terminator. replace (bk_end bl - bk_start bl)%nat with ((bk_end bl - 1 - bk_start bl) + 1)%nat by lia. rewrite seq_app. f_equal. cbn. f_equal. lia. }
        assert (NDb : NoDup (blk_insts bl)) by apply seq_NoDup.
        destruct (interp_block_run env insts _ _ _ _ _ _ _ _ NDb Er) as (RA & _ & _ & RI). cbv iota beta in RA.
        pose proof RA as RA'. rewrite SP, astack_app in RA'.
        destruct (astack env insts (seq (bk_start bl) (terminator bl - bk_start bl)) (repeat ATop (block_inputs insts bl)) u) as [[L uL]|] eqn:EA; [|discriminate].
        exists bl, d, t, (block_inputs insts bl), u, L, uL. split; [apply in_or_app; right; left; reflexivity|].
        do 7 (split; [auto|]). intros Dd IN. destruct (RI _ _ _ _ _ _ SP Hd Dd EA) as [R1 _]. apply R1, IN.
  Qed.
End Local.

(** ** Resolutions. *)
Lemma resolve_cases env insts sn i d : nth_error insts i = Some d -> let r := resolve_jump env insts sn i in
  (d_op d = OP_JUMPI /\ r = mkJ (JResolved [S i]) CAlwaysFalse) \/
  (exists a, last (map Some (sn_in sn i)) None = Some a /\ j_target r = resolve_jump_operand env a) \/
  (last (map Some (sn_in sn i)) None = None /\ r = mkJ JBottom CUnknown).
Proof.
  intros Hn. unfold resolve_jump. rewrite Hn. set (c := if d_op d =? OP_JUMPI then _ else _).
  assert (Hc : c = CAlwaysFalse -> d_op d = OP_JUMPI) by (subst c; destruct (Z.eqb_spec (d_op d) OP_JUMPI); [auto|discriminate]).
  destruct c; [| |left; split; [apply Hc; reflexivity|reflexivity]]; destruct (last _ None) as [a|]; cbn; eauto 6.
Qed.
Lemma local_unknown env insts insts' sn i d d' : nth_error insts i = Some d -> nth_error insts' i = Some d' -> d_op d' = d_op d ->
  j_cond (resolve_jump env insts sn i) = CUnknown -> local_jumpi_condition insts' sn i = CUnknown.
Proof.
  intros Hn Hn' O. unfold resolve_jump, local_jumpi_condition. rewrite Hn, Hn', O. destruct (d_op d =? OP_JUMPI); [|reflexivity].
  destruct (sn_in sn i) as [|a l]; [reflexivity|]. destruct a as [v| |]; try reflexivity. unfold resolve_jump_condition. cbn [abs_const_set existsb].
  cbn [forallb negb andb]. rewrite (Z.eqb_sym 0 v). destruct (v =? 0) eqn:E; cbn; [intros H; inversion H|].
  assert (EL : forall (l : list aval) a, last (map Some (a :: l)) None <> None).
  { clear. induction l as [|b l IH]; intros a; [discriminate|]. exact (IH b). }
  specialize (EL l (AConst v)). cbn [map] in EL. cbn [last] in EL |- *.
  match goal with |- context [match ?x with _ => _ end] => destruct x end; intros H; [inversion H|contradiction].
Qed.
Lemma jumpi_cft d : d_op d = OP_JUMPI -> f_constcond (d_flags d) = false -> f_disabled (d_flags d) || f_unknown (d_flags d) = false -> can_fall_through d = true.
Proof.
  intros O C F. unfold can_fall_through, is_diverging, has_const_jumpi_condition. rewrite O, C. apply orb_false_iff in F as [-> ->]. reflexivity.
Qed.
Lemma operand_targets env a ts : resolve_jump_operand env a = JResolved ts -> forall t, In t ts -> exists v, a_dest env v = Some t.
Proof.
  destruct a as [v|l|]; cbn; [|intros H|discriminate].
  - destruct (a_dest env v) as [t|] eqn:E; [|discriminate]. intros H. injection H as <-. intros t' [<- |[]]. eauto.
  - destruct (set_targets env l) as [ts'|] eqn:E; [|discriminate]. assert (ts' = ts) by (destruct ts'; congruence). subst ts'. clear H.
    revert ts E. induction l as [|v l IH]; cbn; intros ts E; [injection E as <-; intros t []|].
    destruct (a_dest env v) as [t0|] eqn:Ed; [|discriminate]. destruct (set_targets env l) as [ts0|]; [|discriminate]. cbn in E. injection E as <-.
    intros t [<- |Hin]; [eauto|]. eapply IH; [reflexivity|exact Hin].
Qed.

Section Start.
  Context (env : aenv) (prog : list idata).
  Hypothesis PK : prog_ok prog (a_const env) (a_dest env).
  Hypothesis ONE : forall i d, nth_error prog i = Some d -> evaluable (d_op d) -> snd (d_io d) <= 1.

  Lemma kept_jump p i d : kept_list prog (b_insts p) -> nth_error (b_insts p) i = Some d -> is_jump d = true ->
    f_disabled (d_flags d) || f_unknown (d_flags d) = false /\ d_io d = (if d_op d =? OP_JUMP then (1, 0) else (2, 0)).
  Proof.
    intros [_ K] Hn J. destruct (K i d Hn) as (d0 & H0 & KE). destruct KE as (E1 & E2 & _ & _ & _ & _ & E3 & E4 & _).
    assert (O : d_op d0 = 0x56 \/ d_op d0 = 0x57) by (unfold is_jump, OP_JUMP, OP_JUMPI in J; rewrite E1 in J; lia).
    pose proof (po_jump _ _ _ PK i d0 H0 O) as F. rewrite E1, E2, E3, E4. split; [exact F|].
    destruct (po_io _ _ _ PK i d0 H0 F) as (_ & _ & _ & _ & _ & _ & _ & _ & _ & A & B & _). destruct O as [O|O]; rewrite O; [apply A, O|apply B, O].
  Qed.
  Lemma dest_opj p v t : kept_list prog (b_insts p) -> a_dest env v = Some t -> opj p t.
  Proof.
    intros [L K] E. destruct (po_dest _ _ _ PK v t E) as (d0 & H0 & O). destruct (nth_some (b_insts p) t) as [d Hd]; [rewrite L; eapply nth_lt; eauto|].
    exists d. split; [exact Hd|]. destruct (K t d Hd) as (e & He & KE). destruct KE as (E1 & _). unfold is_jumpdest, OP_JUMPDEST. rewrite E1. assert (e = d0) by congruence. subst. lia.
  Qed.
  Lemma next_live' p i d : binv p -> nth_error (b_insts p) i = Some d -> is_dead d = false -> can_fall_through d = true -> live_at (b_insts p) (S i).
  Proof.
    intros B Hn D C. destruct (nth_some (b_insts p) (S i) (bi_last _ B i d Hn C)) as [d1 H1]. exists d1. split; [exact H1|].
    destruct (is_dead d1) eqn:X; [|reflexivity]. destruct (proj2 (bi_dead _ B) i d d1 Hn H1 X) as [Y|Y]; congruence.
  Qed.
  (** A resolution of a live, so far unresolved jump. *)
  Lemma okr_open p i d r sn : binv p -> kept_list prog (b_insts p) -> nth_error (b_insts p) i = Some d -> is_jump d = true ->
    f_static (d_flags d) = false -> f_constcond (d_flags d) = false -> r = resolve_jump env (b_insts p) sn i -> okr p i d r.
  Proof.
    intros B K Hn J FS FC -> D. right. destruct (kept_jump p i d K Hn J) as [F _].
    assert (DY : dynlive p). { exists i, d. split; [exact Hn|]. unfold unresolved. rewrite J, FS, D. reflexivity. }
    assert (TG : forall v t, a_dest env v = Some t -> live_at (b_insts p) t /\ opj p t).
    { intros v t E. pose proof (dest_opj p v t K E) as O. split; [apply (bi_dy _ B DY), O|exact O]. }
    destruct (resolve_cases env (b_insts p) sn i d Hn) as [[O ->]|[(a & _ & E)|[_ ->]]]; cbn [j_target].
    - split; [|right; reflexivity]. eapply next_live'; eauto using jumpi_cft.
    - rewrite E. destruct (resolve_jump_operand env a) as [|[|t [|t' ts]]| |] eqn:Eo; auto.
      + split; [exact FS|]. intros t [].
      + destruct (operand_targets _ _ _ Eo t (or_introl eq_refl)) as [v Ev]. destruct (TG v t Ev). auto.
      + split; [exact FS|]. intros x Hx. destruct (operand_targets _ _ _ Eo x Hx) as [v Ev]. apply (TG v x Ev).
    - exact FS.
  Qed.
  Lemma okr_weaken p i d r sn local : binv p -> kept_list prog (b_insts p) -> nth_error (b_insts p) i = Some d -> is_jump d = true ->
    f_static (d_flags d) = false -> f_constcond (d_flags d) = false -> r = resolve_jump env (b_insts p) sn i -> okr p i d (weaken (b_insts p) local i r).
  Proof.
    intros B K Hn J FS FC -> D. right. destruct (kept_jump p i d K Hn J) as [F _]. unfold weaken.
    assert (LC : local_jumpi_condition (b_insts p) local i = CAlwaysFalse -> d_op d = OP_JUMPI).
    { unfold local_jumpi_condition. rewrite Hn. destruct (Z.eqb_spec (d_op d) OP_JUMPI); [auto|discriminate]. }
    destruct (local_jumpi_condition (b_insts p) local i); cbn [j_target];
      [| |split; [eapply next_live'; eauto using jumpi_cft|right; reflexivity]].
    - unfold is_resolved. destruct (j_target (resolve_jump env (b_insts p) sn i)) eqn:E; cbn [j_target]; rewrite ?E; auto.
    - unfold is_resolved. destruct (j_target (resolve_jump env (b_insts p) sn i)) eqn:E; cbn [j_target]; rewrite ?E; auto.
  Qed.

  (** *** The first phase. *)
  Variable p1 : bc.
  Hypotheses (B1 : binv p1) (S1 : bsup p1) (X1 : exact_reach p1) (R1 : rebuilt p1) (K1 : kept_list prog (b_insts p1)).
  Hypothesis RW1 : forall k d, nth_error (b_insts p1) k = Some d -> f_static (d_flags d) = false /\ f_constcond (d_flags d) = false.
  Variables (rs : list (nat * jres)) (sn : snaps) (used : Z) (p2 : bc).
  Hypothesis EF : fold_left (local_block env p1) (b_blocks p1) ([], (b_snaps p1, b_used p1)) = (rs, (sn, used)).
  Hypothesis EC : commit_resolved rs (with_snaps p1 sn used) = Some p2.

  Lemma rs_facts : NoDup (map fst rs) /\ forall i r, In (i, r) rs -> lres env p1 sn (b_blocks p1) i r.
  Proof.
    destruct (rebuilt_wf p1 R1) as [WF _]. change (b_blocks p1) with ([] ++ b_blocks p1) at 1.
    eapply (local_res env p1 WF); [reflexivity|exact EF|constructor|intros i r []].
  Qed.
  Lemma local_base : binv (recompute_dyn p2).
  Proof.
    destruct rs_facts as [ND RS]. eapply commit_resolved_base; [|exact ND| |exact EC].
    - eapply su_binv; [|exact (bi_red _ B1)|exact B1]. apply same_sameup; reflexivity.
    - intros i r Hin. destruct (RS i r Hin) as (bl & d & t & m & u1 & L & uL & X2 & X3 & X4 & X5 & X6 & X7 & X8 & _). exists d.
      split; [exact X4|]. split; [exact X5|]. change (okr p1 i d r). eapply okr_open; eauto. apply (RW1 _ _ X4).
  Qed.

  Lemma range_facts p : linv p -> rinv p \/ True -> exact_reach p -> rebuilt p -> forall b bl, nth_error (b_blocks p) b = Some bl ->
    chain (b_dyn p) (b_insts p) (bk_start bl, bk_end bl) /\ is_leader (b_dyn p) (b_insts p) (bk_start bl) = true.
  Proof.
    intros LI _ XR RB b bl H. destruct (sup_ranges p LI XR) as (A & _). destruct (blk_range p RB b bl H) as (r & Hr & ->).
    apply nth_error_In in Hr. destruct (A r Hr) as [C G]. cbn. destruct r. split; [exact C|exact G].
  Qed.

  (** *** The second phase. *)
  Variable p3 : bc.
  Hypothesis E3 : refresh_cfg (recompute_dyn p2) = Some p3.
  Hypothesis K3 : kept_list prog (b_insts p3).
  Lemma base3 : binv p3 /\ bsup p3 /\ exact_reach p3 /\ rebuilt p3 /\ b_snaps p3 = sn.
  Proof.
    destruct (refresh_base _ _ local_base E3) as (A & B & C & D & E). split; [exact A|]. split; [exact B|]. split; [exact C|]. split; [exact D|].
    rewrite E. cbn. destruct (commit_resolved_keeps _ _ _ EC) as (_ & X & _). exact X.
  Qed.
  Lemma same13 k d1 d3 : nth_error (b_insts p1) k = Some d1 -> nth_error (b_insts p3) k = Some d3 ->
    d_op d3 = d_op d1 /\ d_io d3 = d_io d1 /\ f_disabled (d_flags d3) = f_disabled (d_flags d1) /\ f_unknown (d_flags d3) = f_unknown (d_flags d1).
  Proof.
    intros H1 H3. destruct K1 as [_ A]. destruct K3 as [_ B]. destruct (A k d1 H1) as (e & He & X). destruct (B k d3 H3) as (e' & He' & Y).
    assert (e' = e) by congruence. subst e'. destruct X as (U1 & U2 & _ & _ & _ & _ & U3 & U4 & _), Y as (V1 & V2 & _ & _ & _ & _ & V3 & V4 & _).
    repeat split; congruence.
  Qed.
  Lemma opj13 k : opj p3 k -> opj p1 k.
  Proof.
    intros (d3 & H3 & J). destruct (nth_some (b_insts p1) k) as [d1 H1]; [apply nth_lt in H3; destruct K1 as [-> _]; destruct K3 as [<- _]; exact H3|].
    exists d1. split; [exact H1|]. destruct (same13 k d1 d3 H1 H3) as (O & _). unfold is_jumpdest in *. rewrite <- O. exact J.
  Qed.
  (** An instruction of the second phase, in terms of the first. *)
  Lemma back13 i d3 : nth_error (b_insts p3) i = Some d3 -> exists d1, nth_error (b_insts p1) i = Some d1 /\
    ((~ In i (map fst rs) /\ rf d1 d3) \/ exists r t, In (i, r) rs /\ j_target r = JResolved [t] /\ d_target d3 = t /\ f_static (d_flags d3) = true /\
      f_invalid (d_flags d3) = false /\ f_multi (d_flags d3) = false /\ f_constcond (d_flags d3) = cond_known (j_cond r) /\ (is_dead d3 = false -> is_dead d1 = false)).
  Proof.
    intros H3. destruct rs_facts as [ND RS]. destruct (refresh_rfl _ _ E3) as [_ R]. destruct (R i d3 H3) as (d2 & H2 & RF). cbn in H2.
    destruct (commit_nth _ _ _ ND EC i d2 H2) as (d1 & H1 & [[N F]|(r & e & bot & m & m' & Hin & C & F)]); exists d1; (split; [exact H1|]).
    - left. split; [exact N|eapply rf_trans; eauto].
    - right. destruct (RS i r Hin) as (bl & d & t & m0 & u1 & L & uL & _ & _ & H1' & _ & FS & _ & T & _). cbn in H1. assert (d = d1) by congruence. subst d.
      exists r, t. pose proof (rf_trans _ _ _ F RF) as G. unfold commit_one in C. rewrite FS, T in C. cbn [andb] in C. injection C as <- _.
      destruct (RW1 _ _ H1) as [_ CC]. destruct G as [G1 G2 G3 G4 G5 G6 G7 G8]. cbn in G1, G2, G3, G4, G5, G6, G7. rewrite CC in G7.
      do 7 (split; [auto|]). intros X. destruct (is_dead d1) eqn:Y; [|reflexivity]. rewrite G8 in X; [discriminate|exact Y].
  Qed.
  (** What the first phase knew about the operand of a jump it resolved. *)
  Definition lf (i : nat) (v : Z) : Prop := oklast v (sn_in sn i) /\ exists s1 m u1 L uL, (s1 <= i)%nat /\
    astack env (b_insts p1) (seq s1 (i - s1)) (repeat ATop m) u1 = Some (L, uL) /\ hd_error L = Some (AConst v) /\
    forall k, (s1 <= k < i)%nat -> exists d1, nth_error (b_insts p1) k = Some d1 /\ is_dead d1 = false /\ is_branching d1 = false /\ ~ opj p1 (S k).
  Lemma local_fact i d3 : nth_error (b_insts p3) i = Some d3 -> is_dead d3 = false -> d_op d3 = OP_JUMPI -> f_static (d_flags d3) = true ->
    f_constcond (d_flags d3) = false -> f_multi (d_flags d3) = false /\ f_invalid (d_flags d3) = false /\
    local_jumpi_condition (b_insts p3) sn i = CUnknown /\ exists v, lf i v /\ a_dest env v = Some (d_target d3).
  Proof.
    intros H3 D3 O3 FS FC. destruct (back13 i d3 H3) as (d1 & H1 & [[N F]|(r & t & Hin & T & TG & _ & FI & FM & CC & DD)]).
    { destruct (RW1 _ _ H1) as [X _]. rewrite (rf_static _ _ F) in FS. congruence. }
    specialize (DD D3). split; [exact FM|]. split; [exact FI|]. rewrite FC in CC.
    destruct rs_facts as [_ RS]. destruct (RS i r Hin) as (bl & d & t' & m & u1 & L & uL & Hbl & Ht & H1' & J & FS1 & Er & T' & AS & SN).
    assert (d = d1) by congruence. subst d. assert (t' = t) by congruence. subst t'. destruct (same13 i d1 d3 H1 H3) as (O & IO & _).
    assert (CU : j_cond r = CUnknown) by (destruct (j_cond r); [reflexivity|discriminate|discriminate]).
    split. { rewrite Er in CU. eapply (local_unknown env _ _ _ _ _ _ H1 H3 O CU). }
    assert (IO1 : d_io d1 = (2, 0)). { destruct (kept_jump p1 i d1 K1 H1 J) as [_ X]. rewrite X. replace (d_op d1 =? OP_JUMP) with false; [reflexivity|]. rewrite <- O, O3. reflexivity. }
    rewrite IO1 in SN. specialize (SN DD ltac:(cbn; lia)). change (Z.to_nat (fst (2, 0))) with 2%nat in SN.
    apply In_nth_error in Hbl as [b Hb].
    destruct (range_facts p1 (binv_linv _ B1 S1) (or_intror Logic.I) X1 R1 b bl Hb) as [CH _].
    destruct (rebuilt_wf _ R1) as [WF _]. pose proof (wf_block _ _ _ WF Hb) as LT. unfold terminator in Ht.
    assert (DY : dynlive p1). { exists i, d1. split; [exact H1|]. unfold unresolved. rewrite J, FS1, DD. reflexivity. }
    assert (BD : b_dyn p1 = true) by (apply (proj1 X1), DY).
    assert (KK : forall k, (bk_start bl <= k < i)%nat -> exists d1, nth_error (b_insts p1) k = Some d1 /\ is_dead d1 = false /\ is_branching d1 = false /\ ~ opj p1 (S k)).
    { intros k Hk. destruct (CH k) as (dk & Hd & Dk & NX); [cbn; lia|]. destruct NX as [NB NL]; [cbn; lia|]. exists dk. do 3 (split; [auto|]).
      intros (e & He & Je). unfold is_leader in NL. rewrite He in NL. unfold is_reachable_jumpdest in NL. rewrite Je, BD in NL. rewrite orb_true_r in NL. discriminate. }
    assert (SIM : sim L L).
    { eapply (sim_run env (b_insts p1) (b_insts p1)); [|apply sim_tops|exact AS|exact AS]. intros k Hk. apply in_seq in Hk.
      destruct (KK k) as (dk & Hd & Dk & _); [lia|]. exists dk, dk. do 6 (split; [auto|]). destruct K1 as [_ K]. destruct (K k dk Hd) as (d0 & H0 & KP).
      destruct KP as (Q1 & Q2 & _). rewrite Q1, Q2. split; [apply (ONE k d0 H0)|]. intros Q. apply (po_byte _ _ _ PK k d0 H0). lia. }
    destruct (resolve_cases env (b_insts p1) sn i d1 H1) as [[_ X]|[(a & LA & OA)|[_ X]]]; [rewrite Er, X in CU; discriminate| |rewrite Er, X in T; discriminate].
    rewrite <- Er, T in OA. rewrite SN in LA. rewrite last_snap in LA.
    assert (N0 : nth_error L 0 = Some a) by (destruct L; exact LA). destruct (SIM 0%nat _ N0) as [-> |(v & -> & _)]; [discriminate|].
    cbn in OA. destruct (a_dest env v) as [t0|] eqn:Ev; [|discriminate]. injection OA as <-. exists v. rewrite TG. split; [|exact Ev].
    split; [right; left; rewrite SN, last_snap; exact LA|]. exists (bk_start bl), m, u1, L, uL. split; [lia|]. auto.
  Qed.
  (** The second phase does not learn anything else about it. *)
  Definition mono (s : snaps) : Prop := forall i v d3, lf i v -> nth_error (b_insts p3) i = Some d3 -> is_dead d3 = false -> d_op d3 = OP_JUMPI -> oklast v (sn_in s i).
  Lemma mono_interp b bl A s u ok stk s' u' : nth_error (b_blocks p3) b = Some bl -> interp_block env (b_insts p3) (blk_insts bl) A s u = (ok, stk, s', u') ->
    mono s -> mono s'.
  Proof.
    intros Hb E M i v d3 LF H3 D3 O3. destruct base3 as (B3 & S3 & X3 & R3 & _).
    destruct (in_dec Nat.eq_dec i (blk_insts bl)) as [HI|N].
    2: { destruct (interp_block_untouched _ _ _ _ _ _ _ _ _ _ E i N) as [-> _]. eapply M; eauto. }
    assert (OK : oklast v (sn_in s i)) by (eapply M; eauto). destruct LF as (_ & s1 & m & u1 & L & uL & LE & AS & HL & KK).
    assert (JJ : is_jump d3 = true) by (unfold is_jump; rewrite O3; reflexivity).
    assert (IO3 : d_io d3 = (2, 0)). { destruct (kept_jump p3 i d3 K3 H3 JJ) as [_ X]. rewrite X, O3. reflexivity. }
    assert (NJ : ~ opj p3 i). { intros (e & He & Je). assert (e = d3) by congruence. subst. unfold is_jumpdest in Je. rewrite O3 in Je. discriminate. }
    assert (NJK : forall k, (s1 < k <= i)%nat -> ~ opj p3 k).
    { intros k Hk. destruct (Nat.eq_dec k i) as [-> |]; [exact NJ|]. intros X. apply opj13 in X. destruct (KK (k - 1)%nat) as (d1 & _ & _ & _ & NO); [lia|].
      apply NO. replace (S (k - 1)) with k by lia. exact X. }
    assert (LV : forall n, (n <= i - s1)%nat -> live_at (b_insts p3) (i - n)).
    { induction n as [|n IH]; intros Hn; [rewrite Nat.sub_0_r; exists d3; auto|]. specialize (IH ltac:(lia)).
      destruct (S3 _ IH) as [X|[[X _]|(j & d & Ej & Hj & Dj & _)]]; [lia|exfalso; apply (NJK (i - n)%nat); [lia|exact X]|].
      replace (i - S n)%nat with j by lia. exists d. auto. }
    assert (LK : forall k, (s1 <= k < i)%nat -> exists d1 d3, nth_error (b_insts p1) k = Some d1 /\ nth_error (b_insts p3) k = Some d3 /\ is_dead d1 = false /\ is_dead d3 = false /\
      d_op d3 = d_op d1 /\ d_io d3 = d_io d1 /\ (evaluable (d_op d1) -> snd (d_io d1) <= 1) /\ (d_op d1 = 0xe8 -> 0 <= a_const env k < 256) /\ is_branching d3 = false).
    { intros k Hk. destruct (KK k Hk) as (d1 & H1 & D1 & NB & _). destruct (LV (i - k)%nat) as (e & He & De); [lia|]. replace (i - (i - k))%nat with k in He by lia.
      destruct (same13 k d1 e H1 He) as (Q1 & Q2 & Q3 & Q4). exists d1, e. do 6 (split; [auto|]). destruct K1 as [_ K]. destruct (K k d1 H1) as (d0 & H0 & KP).
      destruct KP as (P1 & P2 & _). split; [rewrite P1, P2; apply (ONE k d0 H0)|]. split; [intros Q; apply (po_byte _ _ _ PK k d0 H0); lia|].
      revert NB. unfold is_branching, is_diverging, is_jump. rewrite Q1, Q3, Q4. intros NB.
      apply orb_false_iff in NB as [NB1 NB2]. rewrite NB1. cbn [orb]. apply orb_false_iff in NB1 as [NJ1 _].
      rewrite NJ1 in *. cbn [andb] in *. exact NB2. }
    destruct (rebuilt_wf _ R3) as [WF _]. pose proof (wf_block _ _ _ WF Hb) as LT. unfold blk_insts in HI, E. apply in_seq in HI.
    destruct (range_facts p3 (binv_linv _ B3 S3) (or_intror Logic.I) X3 R3 b bl Hb) as [_ LD].
    assert (LE3 : (bk_start bl <= s1)%nat).
    { destruct (Nat.le_gt_cases (bk_start bl) s1) as [X|X]; [exact X|exfalso]. unfold is_leader in LD. apply orb_true_iff in LD as [LD|LD].
      - destruct (bk_start bl) as [|k] eqn:EK; [lia|]. cbn in LD. destruct (LK k) as (d1 & e & _ & He & _ & _ & _ & _ & _ & _ & NB); [lia|].
        rewrite He, NB in LD. unfold is_branching in NB. apply orb_false_iff in NB as [_ NB]. rewrite NB in LD. cbn in LD. rewrite andb_false_r in LD. discriminate.
      - apply (NJK (bk_start bl)); [lia|]. destruct (nth_error (b_insts p3) (bk_start bl)) as [e|] eqn:He; [|discriminate]. exists e. split; [exact He|].
        unfold is_reachable_jumpdest in LD. apply andb_true_iff in LD as [X0 _]. exact X0. }
    eapply (mono_block env (b_insts p1) (b_insts p3) (bk_start bl) _ s1 i v); [exact E|lia|lia|exact H3|exact D3|rewrite IO3; cbn; lia| |exact AS|exact HL|exact OK].
    intros k Hk. destruct (LK k Hk) as (a & c & X). exists a, c. tauto.
  Qed.
  Lemma mono_fx : forall fuel s s' b, mono (fx_snaps s) -> fx_loop env p3 fuel s = (s', b) -> mono (fx_snaps s').
  Proof.
    induction fuel as [|fuel IH]; intros s s' b M E; cbn [fx_loop] in E; destruct (fx_queue s) as [|bid q]; try (injection E as <- _; exact M).
    set (s0 := mkFx (fx_states s) q (fx_disc s) (fx_snaps s) (fx_used s)) in *. eapply IH; [|exact E].
    unfold fx_step. destruct (fx_states s0 bid) as [stk0|]; [|exact M]. destruct (nth_error (b_blocks p3) bid) as [bl|] eqn:Hb; [|exact M].
    destruct (interp_block env (b_insts p3) (blk_insts bl) stk0 (fx_snaps s0) (fx_used s0)) as [[[ok stk'] sn'] u'] eqn:EB.
    assert (M' : mono sn') by (eapply mono_interp; [exact Hb|exact EB|exact M]). destruct ok; [|exact M']. destruct (propagate _ _ _ _ _). exact M'.
  Qed.
  Lemma mono_restore : forall idx s, mono s -> mono (restore_from s idx sn).
  Proof.
    intros idx s M i v d3 LF H3 D3 O3. destruct (FixpointProof.restore_from_spec sn idx s i) as [-> _]. destruct (existsb _ _); [apply LF|eapply M; eauto].
  Qed.

  (** What the second phase may commit. *)
  Lemma okr_static i d r s : nth_error (b_insts p3) i = Some d -> is_jump d = true -> f_static (d_flags d) = true -> d_op d = OP_JUMPI -> f_constcond (d_flags d) = false ->
    mono s -> r = resolve_jump env (b_insts p3) s i -> okr p3 i d r.
  Proof.
    intros H3 J FS O3 FC M -> D. destruct base3 as (B3 & S3 & X3 & R3 & _).
    destruct (local_fact i d H3 D O3 FS FC) as (FM & FI & _ & v & LF & Ev). destruct (kept_jump p3 i d K3 H3 J) as [F _].
    destruct (resolve_cases env (b_insts p3) s i d H3) as [[O ->]|[(a & LA & OA)|[_ ->]]]; cbn [j_target].
    - right. split; [|right; reflexivity]. eapply next_live'; eauto using jumpi_cft.
    - right. rewrite OA. destruct (M i v d LF H3 D O3) as [X|[X|X]]; rewrite X in LA; [discriminate| |]; injection LA as <-; cbn; [|exact Logic.I].
      rewrite Ev. split; [|left; eapply dest_opj; eauto].
      apply (bi_tl _ B3 i); [exists d; auto|]. exists d. split; [exact H3|]. split; [unfold is_static_jump; rewrite J, FS; reflexivity|]. split; [exact FI|]. rewrite FM. reflexivity.
    - left. rewrite FS. reflexivity.
  Qed.
  Lemma okr_global i d r s : nth_error (b_insts p3) i = Some d -> wants_resolution d = true -> mono s -> r = resolve_jump env (b_insts p3) s i ->
    okr p3 i d r /\ okr p3 i d (weaken (b_insts p3) sn i r).
  Proof.
    intros H3 W M Er. unfold wants_resolution in W. apply andb_true_iff in W as [J W]. destruct base3 as (B3 & S3 & X3 & R3 & _).
    destruct (f_static (d_flags d)) eqn:FS.
    - cbn in W. apply andb_true_iff in W as [W1 W2]. apply Z.eqb_eq in W1. unfold has_const_jumpi_condition in W2.
      assert (FC : f_constcond (d_flags d) = false) by (destruct (f_constcond (d_flags d)); [|reflexivity]; rewrite W1 in W2; discriminate).
      split; [eapply okr_static; eauto|]. intros D. left. destruct (local_fact i d H3 D W1 FS FC) as (_ & _ & LC & _). rewrite FS. unfold weaken. rewrite LC. destruct (is_resolved r); reflexivity.
    - assert (FC : f_constcond (d_flags d) = false).
      { destruct (back13 i d H3) as (d1 & H1 & [[_ X]|(r' & t & _ & _ & _ & X & _)]); [|congruence]. rewrite (rf_cc _ _ X). apply (RW1 _ _ H1). }
      split; [eapply okr_open; eauto|eapply okr_weaken; eauto].
  Qed.
  Lemma global_base p4 : block_analysis env p3 sn = Some p4 -> binv p4.
  Proof.
    intros E. destruct base3 as (B3 & S3 & X3 & R3 & SN). unfold block_analysis in E. destruct (run_abstract_interp env p3 sn) as [[[rs3 sn3] u3]|] eqn:ER; [|discriminate].
    assert (SB : forall s u, binv (with_snaps p3 s u)).
    { intros s u. eapply su_binv; [|exact (bi_red _ B3)|exact B3]. apply same_sameup; reflexivity. }
    assert (RS : NoDup (map fst rs3) /\ forall i r, In (i, r) rs3 -> exists d, nth_error (b_insts p3) i = Some d /\ is_jump d = true /\ okr p3 i d r).
    { unfold run_abstract_interp in ER. destruct (run_fixpoint env p3) as [s c] eqn:EX. unfold run_fixpoint in EX.
      assert (M0 : mono (b_snaps p3)) by (rewrite SN; intros i v d3 LF _ _ _; apply LF).
      assert (M1 : mono (fx_snaps s)) by (eapply mono_fx; [|exact EX]; exact M0). set (snx := if c then fx_snaps s else _) in ER.
      assert (M2 : mono snx) by (subst snx; destruct c; [exact M1|apply mono_restore, M1]).
      set (rs0 := map _ (jump_insts (b_insts p3))) in ER.
      assert (F0 : map fst rs0 = jump_insts (b_insts p3)) by (subst rs0; rewrite map_map; cbn; apply map_id).
      assert (ND0 : NoDup (map fst rs0)) by (rewrite F0; apply NoDup_filter, seq_NoDup).
      assert (R0 : forall i r, In (i, r) rs0 -> exists d, nth_error (b_insts p3) i = Some d /\ is_jump d = true /\ okr p3 i d r /\ okr p3 i d (weaken (b_insts p3) sn i r)).
      { intros i r Hin. apply in_map_iff in Hin as (j & Ej & Hj). injection Ej as -> Er. unfold jump_insts in Hj. apply filter_In in Hj as [_ Hj].
        destruct (nth_error (b_insts p3) i) as [d|] eqn:H3; [|discriminate]. exists d. split; [reflexivity|].
        split; [unfold wants_resolution in Hj; apply andb_true_iff in Hj; apply Hj|]. eapply okr_global; eauto. }
      destruct (existsb _ rs0 || negb c).
      - unfold invalidate in ER. destruct (suspects p3 (fx_states s) (fx_disc s)) as [sus|]; [|discriminate]. injection ER as <- _ _. split.
        + rewrite map_map. erewrite map_ext; [exact ND0|]. intros [i r]. reflexivity.
        + intros i r Hin. apply in_map_iff in Hin as ([j r0] & Ej & Hj). destruct (R0 j r0 Hj) as (d & Hd & J & A & B). injection Ej as -> <-. exists d.
          split; [exact Hd|]. split; [exact J|]. destruct (match inst_to_block p3 i with Some b => sus b | None => false end); assumption.
      - injection ER as <- _ _. split; [exact ND0|]. intros i r Hin. destruct (R0 i r Hin) as (d & Hd & J & A & _). exists d. auto. }
    destruct RS as [ND RS]. destruct (_ || _).
    - destruct (commit_resolved rs3 (with_snaps p3 sn3 u3)) as [q|] eqn:EQ; [|discriminate]. cbn in E. injection E as <-.
      eapply commit_resolved_base; [apply SB|exact ND|exact RS|exact EQ].
    - cbn in E. injection E as <-. eapply su_binv; [apply same_sameup| |apply (SB sn3 u3)]; try reflexivity. exact (bi_red _ B3).
  Qed.
End Start.

(** ** Analysis and deduplication together. *)
Section Whole.
  Context (env : aenv) (prog : list idata).
  Hypothesis PK : prog_ok prog (a_const env) (a_dest env).
  Hypothesis RAW : raw prog.
  Hypothesis ONE : forall i d, nth_error prog i = Some d -> evaluable (d_op d) -> snd (d_io d) <= 1.
  Hypothesis T0 : forall i d, nth_error prog i = Some d -> d_target d = 0%nat.
  Hypothesis LAST : forall i d, nth_error prog i = Some d -> can_fall_through d = true -> (S i < length prog)%nat.
  Hypothesis JD : forall i d, nth_error prog i = Some d -> is_jumpdest d = true -> can_fall_through d = true.

  Lemma analyze_ready pl q : analyze_local env (initial prog) = Some pl -> analyze_global env pl = Some q -> ready q.
  Proof.
    intros E1 E2. destruct (local_start _ _ (initial_start _ RAW) _ E1) as (ST1 & _ & _). destruct (global_start _ _ ST1 _ E2) as (ST2 & RB & _).
    assert (W0 : well prog (initial prog)).
    { split; cbn; [split; [reflexivity|intros i d H; exists d; split; [exact H|apply StructProof.keeps_refl]]|]. split; cbn.
      - intros d H. apply (RAW 0%nat _ H).
      - intros k d d1 _ H X. destruct (RAW (S k) _ H) as (_ & _ & _ & _ & Y). unfold is_dead in X. congruence. }
    unfold analyze_local in E1. destruct (refresh_cfg (initial prog)) as [p1|] eqn:EA; [|discriminate].
    destruct (refresh_base _ _ (initial_base _ RAW T0 LAST JD) EA) as (B1 & S1 & X1 & R1 & _). destruct (well_refresh _ _ _ W0 EA) as [W1 _].
    destruct (block_analysis_local env p1) as [p2|] eqn:EB; [|discriminate]. pose proof (well_local _ _ _ _ W1 EB) as W2. destruct (well_refresh _ _ _ W2 E1) as [W3 _].
    unfold block_analysis_local in EB. destruct (fold_left (local_block env p1) (b_blocks p1) ([], (b_snaps p1, b_used p1))) as [rs [sn used]] eqn:EF.
    destruct (commit_resolved rs (with_snaps p1 sn used)) as [p2'|] eqn:EC; [|discriminate]. cbn in EB. injection EB as <-.
    assert (RW1 : forall k d, nth_error (b_insts p1) k = Some d -> f_static (d_flags d) = false /\ f_constcond (d_flags d) = false).
    { intros k d H. destruct (refresh_rfl _ _ EA) as [_ R]. destruct (R k d H) as (d0 & H0 & F). destruct (RAW _ _ H0) as (A & _ & _ & C & _). rewrite (rf_static _ _ F), (rf_cc _ _ F). auto. }
    destruct (base3 env prog PK ONE p1 B1 R1 (proj1 W1) RW1 rs sn used p2' EF EC pl E1) as (_ & _ & _ & _ & SN).
    unfold analyze_global in E2. rewrite SN in E2. destruct (block_analysis env pl sn) as [p4|] eqn:EG; [|discriminate].
    pose proof (global_base env prog PK ONE p1 B1 S1 X1 R1 (proj1 W1) RW1 rs sn used p2' EF EC pl E1 (proj1 W3) p4 EG) as B4.
    destruct (refresh_base _ _ B4 E2) as (B & S & X & R & _). split; [apply binv_linv; assumption|]. split; [apply start_rinv, ST2|]. split; [exact X|].
    split; [|exact R]. rewrite (proj1 ST2). intros k v H. discriminate.
  Qed.
  Lemma analyze_dedup_live ord p : (forall gs, Permutation (ord gs) gs) -> analyze_dedup ord env prog = Some p -> ready p.
  Proof.
    intros PO E. unfold analyze_dedup in E. destruct (analyze_local env (initial prog)) as [pl|] eqn:E1; [|discriminate].
    destruct (analyze_global env pl) as [q|] eqn:E2; [|discriminate]. pose proof (analyze_ready pl q E1 E2) as RD.
    destruct (local_start _ _ (initial_start _ RAW) _ E1) as (ST1 & _ & L1). destruct (global_start _ _ ST1 _ E2) as (ST2 & B2 & L2). cbn in L1.
    destruct (dedup_blocks_ok ord (b_snaps pl) PO (length prog) q (start_rinv _ ST2) B2) as (p' & E' & R' & SH').
    { pose proof (alive_le (b_insts q)) as A. assert (X : length (map d_op (b_insts q)) = length (map d_op prog)) by congruence. rewrite !map_length in X. lia. }
    rewrite E' in E. pose proof (dedup_blocks_live ord (b_snaps pl) PO _ _ _ RD E') as L'.
    destruct (linv_refresh p' L' R') as (p'' & E'' & LI & RI & XR & FL & RB & _). assert (p'' = p) by congruence. subst p''. unfold ready. auto.
  Qed.
End Whole.

(** ** The entry point stays. *)
Lemma zero_refresh p p' : refresh_cfg p = Some p' -> live_at (b_insts p) 0 -> live_at (b_insts p') 0.
Proof.
  assert (UP : forall l l', length l' = length l -> (forall k d', nth_error l' k = Some d' -> exists d, nth_error l k = Some d /\ upto_reach d d') -> live_at l 0 -> live_at l' 0).
  { intros l l' L P (d & H & D). destruct (nth_some l' 0%nat) as [d' H']; [rewrite L; eapply nth_lt; eauto|]. exists d'. split; [exact H'|].
    destruct (P _ _ H') as (e & He & U). assert (e = d) by congruence. subst e. destruct U as [-> |[b ->]]; exact D. }
  assert (MK : forall dyn l l' b, mark_once dyn None 0 l = (l', b) -> live_at l 0 -> live_at l' 0).
  { intros dyn [|d l] l' b E (e & H & D); [discriminate|]. cbn [mark_once] in E. destruct (mark_once dyn _ 1 l) as [r c]. injection E as <- _. exists e. split; [exact H|exact D]. }
  assert (MD : forall fuel q q', mark_dead_code fuel q = Some q' -> live_at (b_insts q) 0 -> live_at (b_insts q') 0).
  { induction fuel as [|f IH]; intros q q' E; cbn [mark_dead_code] in E; destruct (mark_once (b_dyn q) None 0 (b_insts q)) as [l b] eqn:Em; intros Z; pose proof (MK _ _ _ _ Em Z) as Z1.
    - destruct b; [discriminate|]. injection E as <-. exact Z1.
    - destruct b; [|injection E as <-; exact Z1]. destruct (recompute_reachable _) as [q2|] eqn:Er; [|discriminate]. apply (IH _ _ E).
      destruct (recompute_reachable_shape _ _ Er) as (L & P & _). eapply UP; [exact L|exact P|exact Z1]. }
  unfold refresh_cfg. destruct (recompute_reachable (recompute_dyn p)) as [p1|] eqn:E1; [|discriminate].
  destruct (recompute_reachable_shape _ _ E1) as (L & P & _). cbn in L, P. destruct (mark_dead_code _ p1) as [p2|] eqn:E2; [|discriminate].
  unfold compress_redirects. destruct (compress _ _); [|discriminate]. intros E Z. injection E as <-. cbn. eapply MD; [exact E2|]. eapply UP; eauto.
Qed.
Lemma zero_merge_dups c : forall ds p p', merge_dups c p ds = Some p' -> (forall d bl, In d ds -> nth_error (b_blocks p) d = Some bl -> (0 < bk_start bl)%nat) ->
  b_blocks p' = b_blocks p /\ (live_at (b_insts p) 0 -> live_at (b_insts p') 0).
Proof.
  induction ds as [|d ds IH]; intros p p' E H; cbn [merge_dups] in E; [injection E as <-; auto|].
  destruct (merge_dup c p d) as [p1|] eqn:E1; [|discriminate].
  assert (X : b_blocks p1 = b_blocks p /\ (live_at (b_insts p) 0 -> live_at (b_insts p1) 0)).
  { unfold merge_dup in E1. destruct (nth_error (b_blocks p) d) as [db|] eqn:Hd; [|discriminate]. specialize (H d db (or_introl eq_refl) Hd).
    destruct (merge_multi _ _ _ _); [|discriminate]. injection E1 as <-. split; [reflexivity|]. intros Z. cbn [b_insts].
    apply (proj2 (retarget_keeps _ _ _ _)).
    assert (Z1 : live_at (kill (b_insts p) (blk_insts db)) 0) by (apply kill_live; [unfold blk_insts; rewrite in_seq; lia|exact Z]).
    destruct (_ && _); [|exact Z1]. destruct Z1 as (x & Hx & Dx). destruct (bk_start c) as [|n].
    - exists (set_reach x true). split; [|exact Dx]. destruct (kill (b_insts p) (blk_insts db)); [discriminate|]. cbn in Hx |- *. congruence.
    - exists x. split; [|exact Dx]. destruct (kill (b_insts p) (blk_insts db)); [discriminate|]. exact Hx. }
  destruct X as [X1 X2]. destruct (IH p1 p' E) as [A B]; [intros d' bl Hin; rewrite X1; apply H; right; exact Hin|]. split; [congruence|auto].
Qed.
Lemma zero_merge_groups local : forall gs p p', wf_blocks p -> (forall g c ds d, In g gs -> g = c :: ds -> In d ds -> (c < d)%nat) ->
  merge_groups local p gs = Some p' -> live_at (b_insts p) 0 -> live_at (b_insts p') 0.
Proof.
  assert (G : forall gs p p', (forall g c ds d bl, In g gs -> g = c :: ds -> In d ds -> nth_error (b_blocks p) d = Some bl -> (0 < bk_start bl)%nat) ->
    merge_groups local p gs = Some p' -> live_at (b_insts p) 0 -> live_at (b_insts p') 0).
  { induction gs as [|g gs IH]; intros p p' H E Z; cbn [merge_groups] in E; [injection E as <-; exact Z|].
    destruct (merge_group local p g) as [p1|] eqn:E1; [|discriminate].
    assert (X : b_blocks p1 = b_blocks p /\ live_at (b_insts p1) 0).
    { unfold merge_group in E1. destruct g as [|c [|d ds]]; [injection E1 as <-; auto..|]. destruct (nth_error (b_blocks p) c) as [cb|]; [|discriminate].
      destruct (zero_merge_dups cb (d :: ds) _ _ E1) as [A B]; [|split; [exact A|apply B, Z]].
      intros d' bl Hin Hb. eapply (H (c :: d :: ds)); [left; reflexivity|reflexivity|exact Hin|exact Hb]. }
    destruct X as [X1 X2]. eapply IH; [|exact E|exact X2]. intros g' c ds d bl Hg Eg Hd. rewrite X1. eapply H; [right; exact Hg|exact Eg|exact Hd]. }
  intros gs p p' W S E. apply (G gs p p'); [|exact E]. intros g c ds d bl Hg Eg Hd Hb. pose proof (S g c ds d Hg Eg Hd) as LT.
  assert (LL : (c < length (b_blocks p))%nat) by (apply nth_lt in Hb; lia). destruct (nth_some (b_blocks p) c LL) as [cb Hc].
  pose proof (wf_order p c d cb bl W Hc Hb LT). pose proof (wf_block p c cb W Hc). lia.
Qed.
Lemma zero_dedup ord local : (forall gs, Permutation (ord gs) gs) -> forall fuel p p', rebuilt p -> live_at (b_insts p) 0 -> dedup_blocks ord fuel local p = Some p' -> live_at (b_insts p') 0.
Proof.
  intros PO. assert (ST : forall p p1 n, rebuilt p -> live_at (b_insts p) 0 -> dedup_once ord local p = Some (p1, n) -> live_at (b_insts p1) 0).
  { intros p p1 n RB Z E. unfold dedup_once in E. destruct (merge_groups local p (ord (groups p))) as [q|] eqn:EM; [|discriminate]. injection E as <- _.
    eapply zero_merge_groups; [apply (rebuilt_wf p RB)| |exact EM|exact Z]. intros g c ds d Hg -> Hd. apply (Permutation_in _ (PO (groups p))) in Hg.
    pose proof (group_sorted p _ Hg) as [_ H]. apply H, Hd. }
  induction fuel as [|f IH]; intros p p' RB Z E; cbn [dedup_blocks] in E; destruct (dedup_once ord local p) as [[p1 n]|] eqn:E1; try discriminate;
    pose proof (ST _ _ _ RB Z E1) as Z1; destruct (n =? 0)%nat; try discriminate; try (injection E as <-; exact Z1).
  destruct (refresh_cfg p1) as [p2|] eqn:E2; [|discriminate]. eapply IH; [|eapply zero_refresh; eauto|exact E]. unfold refresh_cfg in E2. destruct (recompute_reachable _); [|discriminate]. destruct (mark_dead_code _ _); [|discriminate].
  unfold compress_redirects in E2. destruct (compress _ _); [|discriminate]. injection E2 as <-. reflexivity.
Qed.
Lemma zero_analyze_dedup ord env prog p : (forall gs, Permutation (ord gs) gs) -> raw prog -> prog <> [] -> analyze_dedup ord env prog = Some p -> live_at (b_insts p) 0.
Proof.
  intros PO RAW NE E. unfold analyze_dedup in E. destruct (analyze_local env (initial prog)) as [pl|] eqn:E1; [|discriminate].
  destruct (analyze_global env pl) as [q|] eqn:E2; [|discriminate].
  destruct (local_start _ _ (initial_start _ RAW) _ E1) as (ST1 & _ & L1). destruct (global_start _ _ ST1 _ E2) as (ST2 & B2 & L2). cbn in L1.
  destruct (dedup_blocks ord (length prog) (b_snaps pl) q) as [p'|] eqn:E3; [|discriminate]. eapply zero_refresh; [exact E|].
  eapply zero_dedup; [exact PO|exact B2| |exact E3].
  assert (W0 : well prog (initial prog)).
  { split; cbn; [split; [reflexivity|intros i d H; exists d; split; [exact H|apply StructProof.keeps_refl]]|]. split; cbn.
    - intros d H. apply (RAW 0%nat _ H).
    - intros k d d1 _ H X. destruct (RAW (S k) _ H) as (_ & _ & _ & _ & Y). unfold is_dead in X. congruence. }
  unfold analyze_local in E1. destruct (refresh_cfg (initial prog)) as [p1|] eqn:EA; [|discriminate]. destruct (well_refresh _ _ _ W0 EA) as [W1 _].
  destruct (block_analysis_local env p1) as [p2|] eqn:EB; [|discriminate]. pose proof (well_local _ _ _ _ W1 EB) as W2. destruct (well_refresh _ _ _ W2 E1) as [W3 _].
  unfold analyze_global in E2. destruct (block_analysis env pl (b_snaps pl)) as [p4|] eqn:EG; [|discriminate].
  pose proof (well_global _ _ _ _ _ W3 EG) as W4. destruct (well_refresh _ _ _ W4 E2) as [[[L _] [D _]] _].
  destruct (nth_some (b_insts q) 0%nat) as [d Hd]; [rewrite L; destruct prog; [congruence|cbn; lia]|]. exists d. split; [exact Hd|exact (D d Hd)].
Qed.

(** A block starts at [u]. *)
Lemma hd_block p u : ready p -> hd p u -> exists b bl, nth_error (b_blocks p) b = Some bl /\ bk_start bl = u.
Proof.
  intros (LI & RI & XR & FL & RB) H. destruct (sup_ranges p LI XR) as (_ & _ & A). destruct (A u (proj1 H) (hd_leader p LI XR u H)) as (r & Hr & <-).
  rewrite RB. apply In_nth_error in Hr as [b Hb]. exists b. eexists. split; [rewrite nth_error_map, Hb; reflexivity|]. destruct r. reflexivity.
Qed.

(** ** Facts about loaded programs. *)
Section LoadMore.
  Context (info : Z -> opinfo) (stack_io : Z -> Z * Z) (code : list Z) (st : pstate).
  Hypothesis PARSE : parse (active_of info) stack_io code = Some st.
  Notation prog := (pad_insts (map (idata_of info) (p_insts st))).
  Lemma load_target i d : nth_error prog i = Some d -> d_target d = 0%nat.
  Proof. intros H. destruct (pad_nth _ _ _ _ H) as [(ins & _ & ->)|[_ ->]]; reflexivity. Qed.
  Lemma load_fall i d : nth_error prog i = Some d -> can_fall_through d = true -> (S i < length prog)%nat.
  Proof.
    intros Hn Ho. destruct (pad_nth _ _ _ _ Hn) as [(ins & X & ->)|[_ ->]]; [|discriminate Ho].
    pose proof (nth_lt _ _ _ X) as Hl.
    assert (E0 : exists dl, last (map Some (map (idata_of info) (p_insts st))) None = Some dl /\ (S i = length (p_insts st) -> dl = idata_of info ins)).
    { destruct (p_insts st) as [|x l] eqn:El; [cbn in Hl; lia|].
      destruct (@exists_last _ (x :: l)) as (l' & z & Ez); [discriminate|]. rewrite Ez in *.
      rewrite !map_app. cbn [map]. rewrite last_last. exists (idata_of info z). split; [reflexivity|].
      intros EL. rewrite app_length in EL. cbn in EL. rewrite nth_error_app2 in X by lia.
      replace (i - length l')%nat with 0%nat in X by lia. cbn in X. congruence. }
    destruct E0 as (dl & E0 & E1). unfold pad_insts. rewrite E0.
    destruct (can_fall_through dl) eqn:F; [rewrite app_length, map_length; cbn; lia|]. rewrite map_length.
    destruct (Nat.eq_dec (S i) (length (p_insts st))) as [EL|NE]; [|lia]. exfalso. rewrite (E1 EL) in F. congruence.
  Qed.
  Lemma load_jd i d : oi_unknown (info 0x5b) = false -> oi_disabled (info 0x5b) = false -> nth_error prog i = Some d -> is_jumpdest d = true -> can_fall_through d = true.
  Proof.
    intros U D H J. unfold is_jumpdest in J. apply Z.eqb_eq in J. destruct (pad_nth _ _ _ _ H) as [(ins & _ & ->)|[_ ->]]; [|discriminate J].
    cbn in J. unfold can_fall_through, is_diverging, has_const_jumpi_condition. cbn. rewrite J. change OP_JUMPDEST with 0x5b. rewrite U, D. reflexivity.
  Qed.
  Lemma load_one i d : (forall op, evaluable op -> snd (stack_io op) <= 1) -> nth_error prog i = Some d -> evaluable (d_op d) -> snd (d_io d) <= 1.
  Proof.
    intros ONE H EV. destruct (pad_nth _ _ _ _ H) as [(ins & X & ->)|[_ ->]]; [|cbn; lia]. cbn [d_op d_io idata_of] in *.
    destruct (parse_inst_inv _ _ _ _ PARSE) as (_ & _ & _ & _ & _ & Hio & _). destruct (Hio ins) as (_ & imm & Ei & _); [eapply nth_error_In; eauto|].
    rewrite Ei. destruct (active_of info (i_op ins)); [|cbn; lia]. unfold compute_stack_io, evaluable in *.
    replace (i_op ins =? OP_DUPN) with false by (unfold OP_DUPN; lia). replace (i_op ins =? OP_SWAPN) with false by (unfold OP_SWAPN; lia).
    replace (i_op ins =? OP_EXCHANGE) with false by (unfold OP_EXCHANGE; lia). apply ONE, EV.
  Qed.
End LoadMore.
