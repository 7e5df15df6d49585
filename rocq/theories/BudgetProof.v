(** Proofs for the compile-time evaluation budget (C50). *)
From Verif Require Import ArithSpec ArithModel BlockModel DedupModel BudgetSpec CfgProof ProgramProof DedupRedir.
Open Scope Z_scope.

Lemma aop_code_ops op o : aop_of_code op = Some o -> op = aop_code o.
Proof. unfold aop_of_code. intros E. apply find_some in E as [_ E]. lia. Qed.

Lemma exp_bytes v : 0 <= v -> let n := (256 - leading_zeros v + 7) / 8 in v < 256 ^ n /\ (n = 0 \/ 256 ^ (n - 1) <= v).
Proof.
  intros H. cbv zeta. unfold leading_zeros. destruct (v =? 0) eqn:Z0.
  - assert (v = 0) by lia. subst. cbn. split; [lia|left; reflexivity].
  - assert (P : 0 < v) by lia. pose proof (Z.log2_spec v P) as [A B]. pose proof (Z.log2_nonneg v).
    set (k := Z.log2 v) in *. replace (256 - (256 - (k + 1)) + 7) with (k + 1 * 8) by lia. rewrite Z.div_add by lia.
    pose proof (Z.div_mod k 8 ltac:(lia)) as D. pose proof (Z.mod_pos_bound k 8 ltac:(lia)) as M. set (q := k / 8) in *.
    assert (Q : 0 <= q) by (apply Z.div_pos; lia).
    change 256 with (2 ^ 8). rewrite <- !Z.pow_mul_r by lia. split.
    + eapply Z.lt_le_trans; [exact B|]. apply Z.pow_le_mono_r; lia.
    + right. eapply Z.le_trans; [|exact A]. apply Z.pow_le_mono_r; lia.
Qed.

Lemma gas_price op ins c : const_fold_gas op (avals_const ins) = Some c -> price op ins c.
Proof.
  unfold const_fold_gas, OP_CODESIZE, OP_PC'.
  destruct (op =? 0x38) eqn:E1; [intros H; injection H as <-; apply price_base; lia|].
  destruct (op =? 0x58) eqn:E2; [intros H; injection H as <-; apply price_base; lia|]. cbn [orb].
  destruct (aop_of_code op) as [o|] eqn:E; [|discriminate]. apply aop_code_ops in E.
  destruct o; cbn in E; subst op; intros H;
    try (injection H as <-; first [apply price_verylow; lia|apply price_low; lia|apply price_mid; lia]).
  destruct ins as [|[v|l|] ins]; try discriminate. cbn [avals_const map as_const] in H.
  assert (X : c = 10 + 50 * ((256 - leading_zeros v + 7) / 8)) by (clear -H; congruence). clear H. subst c. apply price_exp.
  - unfold leading_zeros. pose proof (Z.log2_nonneg v). destruct (v =? 0); apply Z.div_pos; lia.
  - intros N. apply exp_bytes; exact N.
Qed.
Lemma price_pos op ins c : price op ins c -> 2 <= c.
Proof. intros H. inversion H; subst; lia. Qed.
Lemma fold_evaluable op pc cl ins r : try_const_fold op pc cl ins = Some r -> evaluable op.
Proof.
  unfold try_const_fold, OP_CODESIZE, OP_PC', evaluable.
  destruct (op =? 0x38) eqn:E1; [lia|]. destruct (op =? 0x58) eqn:E2; [lia|].
  destruct (aop_of_code op) as [o|] eqn:E; [|discriminate]. apply aop_code_ops in E. intros _. destruct o; cbn in E; lia.
Qed.

(** One instruction. *)
Lemma fold_inst_charge env i d ins used r used' : fold_inst env i d ins used = (r, used') ->
  (r = None /\ used' = used) \/
  (exists v c, r = Some (AConst v) /\ evaluable (d_op d) /\ price (d_op d) ins c /\ used' = used + c /\ used' <= a_gas_limit env /\ 0 < snd (d_io d)).
Proof.
  unfold fold_inst. destruct ((0 <? snd (d_io d)) && (used <? a_gas_limit env)) eqn:G; [|intros H; injection H as <- <-; auto].
  apply andb_true_iff in G as [G1 G2].
  destruct (const_fold_gas _ _) as [c|] eqn:EG; [|intros H; injection H as <- <-; auto].
  destruct (used + c <=? a_gas_limit env) eqn:L; [|intros H; injection H as <- <-; auto].
  destruct (try_const_fold _ _ _ _) as [v|] eqn:EF; intros H; injection H as <- <-; [|auto].
  right. exists v, c. repeat split; [eapply fold_evaluable; eauto|apply gas_price; exact EG|lia..].
Qed.

(** The arms of [interp_inst] that are not constant folding have opcodes that are not evaluable. *)
Lemma interp_inst_charge env i d stk used r used' : interp_inst env i d stk used = (r, used') ->
  (used' = used /\ (evaluable (d_op d) -> forall s, r = Some s -> 0 < snd (d_io d) -> hd_error s = Some ATop)) \/
  (exists v c s, r = Some s /\ hd_error s = Some (AConst v) /\ evaluable (d_op d) /\ 0 < snd (d_io d) /\
     price (d_op d) (rev (firstn (Z.to_nat (fst (d_io d))) stk)) c /\ used' = used + c /\ used' <= a_gas_limit env).
Proof.
  unfold interp_inst, OP_PUSH0, OP_PUSH32, OP_POP, OP_DUPN, OP_SWAPN, OP_EXCHANGE. intros H.
  repeat match type of H with
  | (if ?c then _ else _) = _ =>
      let C := fresh "C" in destruct c eqn:C;
      [injection H as <- <-; left; split; [reflexivity|]; unfold evaluable; try (intros; lia); try (intros ? ? X; discriminate X)|]
  end.
  destruct (fold_inst _ _ _ _ _) as [fo u] eqn:EF. injection H as <- <-.
  destruct (fold_inst_charge _ _ _ _ _ _ _ EF) as [[-> ->]|(v & c & -> & EV & PR & U & L & PO)].
  - left. split; [reflexivity|]. intros _ s E P. injection E as <-. destruct (Z.to_nat (snd (d_io d))) eqn:N; [lia|]. reflexivity.
  - right. exists v, c. eexists. split; [reflexivity|]. cbn. auto 10.
Qed.

(** ** Blocks. *)
Definition untouched (sn sn' : snaps) (idx : list nat) : Prop := forall i, ~ In i idx -> sn_in sn' i = sn_in sn i /\ sn_out sn' i = sn_out sn i.
Lemma upd_same {A} (f : nat -> A) i v : upd f i v i = v.
Proof. unfold upd. rewrite Nat.eqb_refl. reflexivity. Qed.
Lemma upd_other {A} (f : nat -> A) i v k : k <> i -> upd f i v k = f k.
Proof. unfold upd. intros H. destruct (k =? i)%nat eqn:E; [apply Nat.eqb_eq in E; congruence|reflexivity]. Qed.
Lemma interp_block_untouched env insts : forall idx stk sn used ok stk' sn' used',
  interp_block env insts idx stk sn used = (ok, stk', sn', used') -> untouched sn sn' idx.
Proof.
  induction idx as [|i idx IH]; intros stk sn used ok stk' sn' used' E; cbn [interp_block] in E.
  - injection E as _ _ <- _. intros k _. auto.
  - destruct (nth_error insts i) as [d|]; [|injection E as _ _ <- _; intros k _; auto].
    destruct (is_dead d); [intros k N; apply (IH _ _ _ _ _ _ _ E); intros X; apply N; right; exact X|].
    set (sn1 := if (0 <? _)%nat then _ else _) in *.
    assert (U1 : forall k, k <> i -> sn_in sn1 k = sn_in sn k /\ sn_out sn1 k = sn_out sn k).
    { intros k N. subst sn1. destruct (0 <? _)%nat; [|auto]. cbn. rewrite upd_other by exact N. auto. }
    destruct (interp_inst env i d stk used) as [[s|] u] eqn:EI.
    + set (sn2 := if _ && _ then _ else _) in *.
      assert (U2 : forall k, k <> i -> sn_in sn2 k = sn_in sn1 k /\ sn_out sn2 k = sn_out sn1 k).
      { intros k N. subst sn2. destruct (_ && _); [|auto]. cbn. rewrite upd_other by exact N. auto. }
      intros k N. assert (k <> i) by (intros ->; apply N; left; reflexivity).
      destruct (IH _ _ _ _ _ _ _ E k) as [A B]; [intros X; apply N; right; exact X|].
      destruct (U1 k H), (U2 k H). split; congruence.
    + injection E as _ _ <- _. intros k N. apply U1. intros ->. apply N. left. reflexivity.
Qed.

Lemma charges_ext insts sn sn' : forall idx n c, untouched sn sn' [] -> charges insts sn idx n c -> charges insts sn' idx n c.
Proof.
  intros idx n c U H. assert (EV : forall i, evaluated insts sn i <-> evaluated insts sn' i).
  { intros i. destruct (U i ltac:(cbn; tauto)) as [_ B]. unfold evaluated. rewrite B. tauto. }
  induction H; [constructor| |].
  - eapply charges_eval; eauto; [apply EV; assumption|]. destruct (U i ltac:(cbn; tauto)) as [A _]. rewrite A. assumption.
  - apply charges_skip; [rewrite <- EV; assumption|assumption].
Qed.

Lemma evaluable_not_swap op : evaluable op -> is_swap op = false.
Proof. unfold evaluable, is_swap, OP_SWAPN, OP_EXCHANGE. intros H. lia. Qed.

Lemma interp_block_charges env insts : forall idx stk sn used ok stk' sn' used', NoDup idx ->
  interp_block env insts idx stk sn used = (ok, stk', sn', used') ->
  exists done rest n, idx = done ++ rest /\ (ok = true -> rest = []) /\ charges insts sn' done n (used' - used) /\
                      (n = 0%nat \/ used' <= a_gas_limit env).
Proof.
  induction idx as [|i idx IH]; intros stk sn used ok stk' sn' used' ND E; cbn [interp_block] in E.
  - injection E as <- _ <- <-. exists [], [], 0%nat. replace (used - used) with 0 by lia. repeat split; auto. constructor.
  - inversion ND as [|? ? NI ND']; subst.
    destruct (nth_error insts i) as [d|] eqn:Hi.
    2:{ injection E as <- _ <- <-. exists [], (i :: idx), 0%nat. replace (used - used) with 0 by lia. repeat split; auto; [discriminate|constructor]. }
    destruct (is_dead d) eqn:DD.
    { destruct (IH _ _ _ _ _ _ _ ND' E) as (done & rest & n & -> & R & CH & LI). exists (i :: done), rest, n. repeat split; auto.
      apply charges_skip; [|exact CH]. intros (d' & v & N & F & _). unfold is_dead in DD. congruence. }
    set (sn1 := if (0 <? Z.to_nat (fst (d_io d)))%nat then _ else _) in *.
    destruct (interp_inst env i d stk used) as [r u] eqn:EI.
    destruct (interp_inst_charge _ _ _ _ _ _ _ EI) as [[-> TOP]|(v & c & s & -> & HD & EV & PO & PR & -> & LI0)].
    + destruct r as [s|].
      2:{ injection E as <- _ <- <-. exists [], (i :: idx), 0%nat. replace (used - used) with 0 by lia. repeat split; auto; [discriminate|constructor]. }
      pose proof (interp_block_untouched _ _ _ _ _ _ _ _ _ _ E i NI) as [_ UO].
      destruct (IH _ _ _ _ _ _ _ ND' E) as (done & rest & n & -> & R & CH & LI). exists (i :: done), rest, n. repeat split; auto.
      apply charges_skip; [|exact CH]. intros (d' & v & N & F & EV & P & O). assert (d' = d) by congruence. subst d'.
      rewrite UO in O. rewrite (evaluable_not_swap _ EV) in O.
      assert (P' : 0 <? snd (d_io d) = true) by lia. rewrite P' in O. cbn in O. rewrite upd_same in O. rewrite (TOP EV s eq_refl P) in O. discriminate.
    + pose proof (interp_block_untouched _ _ _ _ _ _ _ _ _ _ E i NI) as [UI UO].
      destruct (IH _ _ _ _ _ _ _ ND' E) as (done & rest & n & -> & R & CH & LI). exists (i :: done), rest, (S n).
      assert (P' : 0 <? snd (d_io d) = true) by lia. rewrite P', (evaluable_not_swap _ EV) in UI, UO. cbn in UI, UO. rewrite upd_same in UO.
      split; [reflexivity|]. split; [exact R|]. split.
      * replace (used' - used) with (c + (used' - (used + c))) by lia. eapply charges_eval with (d := d); eauto.
        -- exists d, v. split; [exact Hi|]. split; [exact DD|]. split; [exact EV|]. split; [exact PO|]. congruence.
        -- rewrite UI. subst sn1. destruct (0 <? Z.to_nat (fst (d_io d)))%nat eqn:IP; cbn.
           ++ rewrite upd_same. exact PR.
           ++ assert (Z0 : Z.to_nat (fst (d_io d)) = 0%nat) by (apply Nat.ltb_ge in IP; lia). rewrite Z0 in PR. cbn in PR.
              inversion PR; subst; [apply price_base|apply price_verylow|apply price_low|apply price_mid]; assumption.
      * right. destruct LI as [-> |LI]; [|exact LI]. inversion CH; subst.
        -- lia.
        -- clear -CH LI0. remember 0%nat as z. remember (used' - (used + c)) as w. assert (w = 0); [|lia]. clear Heqw.
           revert Heqz. induction CH; intros Heqz; [reflexivity|discriminate|auto].
Qed.
Lemma charges_bound insts sn idx n c : charges insts sn idx n c -> 2 * Z.of_nat n <= c.
Proof. induction 1; [lia| |lia]. apply price_pos in H1. lia. Qed.

(** ** The whole analysis. *)
Lemma interp_used env insts idx stk sn used ok stk' sn' used' : interp_block env insts idx stk sn used = (ok, stk', sn', used') ->
  used' = used \/ (used < used' <= a_gas_limit env).
Proof.
  revert stk sn used. induction idx as [|i idx IH]; intros stk sn used E; cbn [interp_block] in E.
  - injection E as _ _ _ <-. auto.
  - destruct (nth_error insts i) as [d|]; [|injection E as _ _ _ <-; auto].
    destruct (is_dead d); [eauto|].
    destruct (interp_inst env i d stk used) as [r u] eqn:EI.
    assert (S : u = used \/ used < u <= a_gas_limit env).
    { destruct (interp_inst_charge _ _ _ _ _ _ _ EI) as [[-> _]|(v & c & s & _ & _ & _ & _ & PR & -> & L)]; [auto|]. apply price_pos in PR. lia. }
    destruct r as [s|]; [destruct (IH _ _ _ E); lia|injection E as _ _ _ <-; exact S].
Qed.

Lemma rounds_step env insts idx stk sn u ok stk' sn' u1 l m u2 : NoDup idx -> interp_block env insts idx stk sn u = (ok, stk', sn', u1) ->
  rounds env u1 l m u2 -> exists n, rounds env u (insts :: l) (n + m) u2.
Proof.
  intros ND E R. destruct (interp_block_charges _ _ _ _ _ _ _ _ _ _ ND E) as (done & rest & n & -> & OK & CH & _). exists n. econstructor; eauto.
Qed.
Lemma rounds_app env u l1 n1 u1 l2 n2 u2 : rounds env u l1 n1 u1 -> rounds env u1 l2 n2 u2 -> rounds env u (l1 ++ l2) (n1 + n2) u2.
Proof. induction 1; intros H3; cbn; [exact H3|]. rewrite <- Nat.add_assoc. econstructor; eauto. Qed.
Lemma rounds_used env u l n u' : rounds env u l n u' -> (u' = u \/ (u < u' <= a_gas_limit env)) /\ 2 * Z.of_nat n <= u' - u.
Proof.
  induction 1; [split; [auto|lia]|]. apply charges_bound in H1. destruct (interp_used _ _ _ _ _ _ _ _ _ _ H); split; lia.
Qed.

Lemma local_rounds env p : forall bs acc rs sn used, fold_left (local_block env p) bs acc = (rs, (sn, used)) ->
  exists l n, rounds env (snd (snd acc)) l n used /\ length l = length bs.
Proof.
  induction bs as [|b bs IH]; intros [rs0 [sn0 u0]] rs sn used E; cbn [fold_left] in E.
  - injection E as _ _ <-. exists [], 0%nat. cbn. repeat split; constructor.
  - destruct (IH _ _ _ _ E) as (l & n & R & L).
    unfold local_block in R. destruct (interp_block _ _ _ _ _ _) as [[[ok stk'] sn'] u'] eqn:EB.
    assert (R' : rounds env u' l n used) by (clear -R; destruct (_ && _); [|exact R]; destruct (j_target _) as [|[|? [|]]| |]; exact R).
    destruct (rounds_step _ _ _ _ _ _ _ _ _ _ _ _ _ (seq_NoDup _ _) EB R') as [k K]. exists (b_insts p :: l), (k + n)%nat. split; [exact K|cbn; lia].
Qed.
Lemma fx_rounds env p : forall fuel s s' b, fx_loop env p fuel s = (s', b) ->
  exists l n, rounds env (fx_used s) l n (fx_used s') /\ (length l <= fuel)%nat.
Proof.
  induction fuel as [|fuel IH]; intros s s' b E; cbn [fx_loop] in E; destruct (fx_queue s) as [|bid q];
    try (injection E as <- _; exists [], 0%nat; cbn; split; [constructor|lia]).
  destruct (IH _ _ _ E) as (l & n & R & L). unfold fx_step in R. cbn [fx_states fx_used fx_snaps] in R.
  destruct (fx_states s bid) as [stk0|]; [|exists l, n; split; auto; lia].
  destruct (nth_error (b_blocks p) bid) as [bl|]; [|exists l, n; split; auto; lia].
  destruct (interp_block _ _ _ _ _ _) as [[[ok stk'] sn'] u'] eqn:EB.
  assert (R' : rounds env u' l n (fx_used s')) by (destruct ok; [destruct (propagate _ _ _ _ _) as [st q'] in R|]; exact R).
  destruct (rounds_step _ _ _ _ _ _ _ _ _ _ _ _ _ (seq_NoDup _ _) EB R') as [k K]. exists (b_insts p :: l), (k + n)%nat. split; [exact K|cbn; lia].
Qed.

Lemma build_length dyn all : forall l i cur pending, (length (build dyn all i l cur pending) <= length l + match cur with Some _ => 1 | None => 0 end)%nat.
Proof.
  induction l as [|d l IH]; intros i cur pending; cbn [build].
  - destruct cur; cbn; lia.
  - destruct (is_dead d); [specialize (IH (S i) cur (pending || is_leader dyn all i)%bool); cbn; destruct cur; lia|].
    destruct cur as [[s e]|].
    + destruct (_ || _).
      * specialize (IH (S i) (Some (i, S i)) false). cbn in *. lia.
      * specialize (IH (S i) (Some (s, S i)) false). cbn in *. lia.
    + specialize (IH (S i) (Some (i, S i)) false). cbn in *. lia.
Qed.

Lemma recompute_reachable_keeps p p' : recompute_reachable p = Some p' ->
  length (b_insts p') = length (b_insts p) /\ b_snaps p' = b_snaps p /\ b_used p' = b_used p /\ b_blocks p' = b_blocks p.
Proof. intros E. destruct (recompute_reachable_shape _ _ E) as (L & _ & _ & _ & _ & S & B & U). auto. Qed.
Lemma mark_once_len dyn : forall l mode i, length (fst (mark_once dyn mode i l)) = length l.
Proof.
  induction l as [|d l IH]; intros mode i; [reflexivity|]. cbn [mark_once].
  destruct mode as [t|]; repeat (match goal with |- context [mark_once dyn ?m ?k l] => pose proof (IH m k); destruct (mark_once dyn m k l) end || destruct (_ || _)); cbn in *; lia.
Qed.
Lemma mark_dead_keeps fuel : forall p p', mark_dead_code fuel p = Some p' -> length (b_insts p') = length (b_insts p) /\ b_snaps p' = b_snaps p /\ b_used p' = b_used p.
Proof.
  induction fuel as [|f IH]; intros p p' E; cbn [mark_dead_code] in E; pose proof (mark_once_len (b_dyn p) (b_insts p) None 0) as ML;
    destruct (mark_once (b_dyn p) None 0 (b_insts p)) as [l b]; cbn in ML; destruct b; try discriminate; try (injection E as <-; cbn; auto; fail).
  destruct (recompute_reachable _) as [p2|] eqn:Er; [|discriminate]. destruct (recompute_reachable_keeps _ _ Er) as (L & S & U & _). cbn in *.
  destruct (IH _ _ E) as (L' & S' & U'). repeat split; congruence.
Qed.
Lemma refresh_keeps p p' : refresh_cfg p = Some p' ->
  length (b_insts p') = length (b_insts p) /\ b_snaps p' = b_snaps p /\ b_used p' = b_used p /\ (length (b_blocks p') <= length (b_insts p))%nat.
Proof.
  unfold refresh_cfg. intros E. destruct (recompute_reachable _) as [p1|] eqn:E1; [|discriminate].
  destruct (mark_dead_code _ p1) as [p2|] eqn:E2; [|discriminate]. destruct (compress_redirects p2) as [p3|] eqn:E3; [|discriminate].
  injection E as <-. destruct (recompute_reachable_keeps _ _ E1) as (L1 & S1 & U1 & _). destruct (mark_dead_keeps _ _ _ E2) as (L2 & S2 & U2).
  unfold compress_redirects in E3. destruct (compress _ _); [|discriminate]. injection E3 as <-. cbn in *.
  repeat split; try congruence. rewrite map_length. unfold ranges. pose proof (build_length (b_dyn p2) (b_insts p2) (b_insts p2) 0 None false). cbn in *. lia.
Qed.
Lemma commit_keeps has_top : forall rs p, let p' := fold_left (commit_step has_top) rs p in
  length (b_insts p') = length (b_insts p) /\ b_snaps p' = b_snaps p /\ b_used p' = b_used p /\ b_blocks p' = b_blocks p.
Proof.
  induction rs as [|[i r] rs IH]; intros p; cbn [fold_left]; [auto|]. cbv zeta. destruct (IH (commit_step has_top p (i, r))) as (L & S & U & B).
  rewrite L, S, U, B. unfold commit_step. destruct (nth_error (b_insts p) i); [|auto]. destruct (commit_one _ _ _ _ _) as [d' m']. cbn.
  repeat split; auto. clear. generalize (b_insts p). revert i. induction i as [|i IH]; intros [|x l]; cbn; auto.
Qed.
Lemma commit_resolved_keeps rs p p' : commit_resolved rs p = Some p' ->
  length (b_insts p') = length (b_insts p) /\ b_snaps p' = b_snaps p /\ b_used p' = b_used p.
Proof.
  unfold commit_resolved. intros E. destruct (recompute_reachable_keeps _ _ E) as (L & S & U & _).
  destruct (commit_keeps (existsb (fun ir => is_top (snd ir)) rs) rs p) as (L' & S' & U' & _). repeat split; congruence.
Qed.

Lemma analyze_local_rounds env p p' : analyze_local env p = Some p' ->
  exists l n, rounds env (b_used p) l n (b_used p') /\ (length l <= length (b_insts p))%nat /\ length (b_insts p') = length (b_insts p) /\
            (length (b_blocks p') <= length (b_insts p))%nat.
Proof.
  unfold analyze_local. intros E. destruct (refresh_cfg p) as [p1|] eqn:E1; [|discriminate].
  destruct (block_analysis_local env p1) as [p2|] eqn:E2; [|discriminate].
  destruct (refresh_keeps _ _ E1) as (L1 & _ & U1 & B1). destruct (refresh_keeps _ _ E) as (L3 & _ & U3 & B3).
  unfold block_analysis_local in E2. destruct (fold_left _ _ _) as [rs [sn used]] eqn:EF.
  destruct (local_rounds _ _ _ _ _ _ _ EF) as (l & n & R & L). cbn in R.
  destruct (commit_resolved rs _) as [p2'|] eqn:EC; [|discriminate]. cbn in E2. injection E2 as <-.
  destruct (commit_resolved_keeps _ _ _ EC) as (L2 & _ & U2). cbn in *.
  exists l, n. rewrite U3, U2, <- U1. repeat split; [exact R|lia..].
Qed.
Lemma analyze_global_rounds env p p' : analyze_global env p = Some p' ->
  exists l n, rounds env (b_used p) l n (b_used p') /\ (length l <= 8 * length (b_blocks p))%nat /\ length (b_insts p') = length (b_insts p).
Proof.
  unfold analyze_global. intros E. destruct (block_analysis env p (b_snaps p)) as [p1|] eqn:E1; [|discriminate].
  destruct (refresh_keeps _ _ E) as (L3 & _ & U3 & _).
  unfold block_analysis in E1. destruct (run_abstract_interp _ _ _) as [[[rs sn] used]|] eqn:ER; [|discriminate].
  assert (EU : exists s b, run_fixpoint env p = (s, b) /\ used = fx_used s).
  { unfold run_abstract_interp in ER. destruct (run_fixpoint env p) as [s b]. exists s, b. split; [reflexivity|].
    destruct (_ || _); [destruct (invalidate _ _ _ _ _ _) as [[? ?]|]; [|discriminate]|]; congruence. }
  destruct EU as (s & b & EX & ->). unfold run_fixpoint in EX. destruct (fx_rounds _ _ _ _ _ _ EX) as (l & n & R & L). cbn in R.
  exists l, n. split; [|split; [lia|]].
  - rewrite U3. destruct (_ || _) in E1.
    + destruct (commit_resolved rs _) as [q|] eqn:EC; [|discriminate]. cbn in E1. injection E1 as <-.
      destruct (commit_resolved_keeps _ _ _ EC) as (_ & _ & U2). cbn in *. rewrite U2. exact R.
    + cbn in E1. injection E1 as <-. exact R.
  - rewrite L3. destruct (_ || _) in E1.
    + destruct (commit_resolved rs _) as [q|] eqn:EC; [|discriminate]. cbn in E1. injection E1 as <-.
      destruct (commit_resolved_keeps _ _ _ EC) as (L2 & _ & _). cbn in *. exact L2.
    + cbn in E1. injection E1 as <-. reflexivity.
Qed.
Lemma merge_dups_used c : forall ds p p', merge_dups c p ds = Some p' -> b_used p' = b_used p.
Proof.
  induction ds as [|d ds IH]; intros p p' E; cbn [merge_dups] in E; [congruence|].
  destruct (merge_dup c p d) as [p1|] eqn:E1; [|discriminate]. rewrite (IH _ _ E). unfold merge_dup in E1.
  destruct (nth_error _ _); [|discriminate]. destruct (merge_multi _ _ _ _); [|discriminate]. injection E1 as <-. reflexivity.
Qed.
Lemma merge_groups_used local : forall gs p p', merge_groups local p gs = Some p' -> b_used p' = b_used p.
Proof.
  induction gs as [|g gs IH]; intros p p' E; cbn [merge_groups] in E; [congruence|].
  destruct (merge_group local p g) as [p1|] eqn:E1; [|discriminate]. rewrite (IH _ _ E). unfold merge_group in E1.
  destruct g as [|c [|d ds]]; [congruence..|]. destruct (nth_error _ _); [|discriminate]. apply merge_dups_used in E1. exact E1.
Qed.
Lemma dedup_used ord : forall fuel local p p', dedup_blocks ord fuel local p = Some p' -> b_used p' = b_used p.
Proof.
  induction fuel as [|f IH]; intros local p p' E; cbn [dedup_blocks] in E; unfold dedup_once in E;
    destruct (merge_groups local p _) as [p1|] eqn:E1; try discriminate; destruct (_ =? 0)%nat; try discriminate;
    try (injection E as <-; eapply merge_groups_used; eauto; fail).
  destruct (refresh_cfg p1) as [p2|] eqn:E2; [|discriminate]. destruct (refresh_keeps _ _ E2) as (_ & _ & U & _).
  rewrite (IH _ _ _ E), U. eapply merge_groups_used; eauto.
Qed.
Lemma analyze_rounds env prog p : analyze env prog = Some p ->
  exists l n, rounds env 0 l n (b_used p) /\ (length l <= 9 * length prog)%nat.
Proof.
  unfold analyze. intros E. destruct (analyze_local env (initial prog)) as [pl|] eqn:E1; [|discriminate].
  destruct (analyze_local_rounds _ _ _ E1) as (l1 & n1 & R1 & L1 & _ & B1). destruct (analyze_global_rounds _ _ _ E) as (l2 & n2 & R2 & L2 & _). cbn in *.
  exists (l1 ++ l2), (n1 + n2)%nat. split; [eapply rounds_app; eauto|]. rewrite app_length. lia.
Qed.
Lemma analyze_dedup_rounds ord env prog p : analyze_dedup ord env prog = Some p ->
  exists l n, rounds env 0 l n (b_used p) /\ (length l <= 9 * length prog)%nat.
Proof.
  unfold analyze_dedup. intros E. destruct (analyze_local env (initial prog)) as [pl|] eqn:E1; [|discriminate].
  destruct (analyze_global env pl) as [pg|] eqn:E2; [|discriminate].
  destruct (dedup_blocks _ _ _ _) as [pd|] eqn:E3; [|discriminate]. destruct (refresh_keeps _ _ E) as (_ & _ & U & _).
  rewrite U, (dedup_used _ _ _ _ _ E3). apply analyze_rounds. unfold analyze. rewrite E1. exact E2.
Qed.

(** ** Opcodes whose interpretation leaves no constant on top: none of them ever has a known result. *)
Definition tops (env : aenv) (Qp : Z -> Prop) : Prop := forall i d stk used r u, interp_inst env i d stk used = (r, u) -> 0 <= used ->
  0 <= u /\ forall s v, r = Some s -> Qp (d_op d) -> 0 < snd (d_io d) -> is_swap (d_op d) = false -> hd_error s <> Some (AConst v).
(** With an exhausted budget nothing is evaluated. *)
Lemma exhausted_tops env : a_gas_limit env <= 0 -> tops env evaluable.
Proof.
  intros LIM i d stk used r u EI U. destruct (interp_inst_charge _ _ _ _ _ _ _ EI) as [[-> TOP]|(v & c & s & _ & _ & _ & _ & PR & -> & LI0)]; [|apply price_pos in PR; lia].
  split; [exact U|]. intros s v -> EV P _. rewrite (TOP EV s eq_refl P). discriminate.
Qed.
Section Quiet.
  Variable env : aenv.
  Variable Qp : Z -> Prop.
  Hypothesis HQ : tops env Qp.
  Variable ops : list Z.
  Definition quiet (sn : snaps) : Prop := forall i op v, nth_error ops i = Some op -> Qp op -> sn_out sn i <> Some (AConst v).
  Lemma quiet_interp insts : map d_op insts = ops -> forall idx stk sn used ok stk' sn' used', 0 <= used -> quiet sn ->
    interp_block env insts idx stk sn used = (ok, stk', sn', used') -> quiet sn' /\ 0 <= used'.
  Proof.
    intros EO. induction idx as [|i idx IH]; intros stk sn used ok stk' sn' used' U Q E; cbn [interp_block] in E.
    - injection E as _ _ <- <-. auto.
    - destruct (nth_error insts i) as [d|] eqn:Hi; [|injection E as _ _ <- <-; auto]. destruct (is_dead d); [eauto|].
      set (sn1 := if (0 <? Z.to_nat (fst (d_io d)))%nat then _ else _) in *.
      assert (Q1 : quiet sn1) by (subst sn1; destruct (0 <? _)%nat; exact Q).
      destruct (interp_inst env i d stk used) as [r u] eqn:EI.
      destruct (HQ _ _ _ _ _ _ EI U) as [U1 TOP].
      destruct r as [s|]; [|injection E as _ _ <- <-; auto]. eapply IH; [exact U1| |exact E].
      destruct (0 <? snd (d_io d)) eqn:P; [|exact Q1]. destruct (is_swap (d_op d)) eqn:SW; [exact Q1|]. cbn [negb andb].
      intros k op v Hk EV. cbn. destruct (Nat.eq_dec k i) as [-> |N]; [|rewrite upd_other by exact N; apply (Q1 k op v Hk EV)].
      rewrite upd_same. rewrite <- EO in Hk. rewrite nth_error_map, Hi in Hk. injection Hk as <-. apply (TOP s v eq_refl EV); [lia|reflexivity].
  Qed.
  Lemma quiet_restore saved : quiet saved -> forall idx sn, quiet sn -> quiet (restore_from sn idx saved).
  Proof.
    intros QS. unfold restore_from. induction idx as [|i idx IH]; intros sn Q; cbn [fold_left]; [exact Q|]. apply IH.
    intros k op v Hk EV. cbn. destruct (Nat.eq_dec k i) as [-> |N]; [rewrite upd_same; eapply QS; eauto|rewrite upd_other by exact N; eapply Q; eauto].
  Qed.
  Lemma quiet_local p : map d_op (b_insts p) = ops -> forall bs acc rs sn used, 0 <= snd (snd acc) -> quiet (fst (snd acc)) ->
    fold_left (local_block env p) bs acc = (rs, (sn, used)) -> quiet sn /\ 0 <= used.
  Proof.
    intros EO. induction bs as [|b bs IH]; intros [rs0 [sn0 u0]] rs sn used U Q E; cbn [fold_left fst snd] in *.
    - injection E as _ <- <-. auto.
    - destruct (interp_block env (b_insts p) (blk_insts b) (repeat ATop (block_inputs (b_insts p) b)) sn0 u0) as [[[ok stk'] sn'] u'] eqn:EB.
      destruct (quiet_interp _ EO _ _ _ _ _ _ _ _ U Q EB) as [Q' U'].
      assert (X : quiet (fst (snd (local_block env p (rs0, (sn0, u0)) b))) /\ 0 <= snd (snd (local_block env p (rs0, (sn0, u0)) b))).
      { unfold local_block. rewrite EB. destruct (_ && _); [|auto]. destruct (j_target _) as [|[|? [|]]| |]; auto. }
      eapply IH; [apply X|apply X|exact E].
  Qed.
  Lemma quiet_fx p : map d_op (b_insts p) = ops -> forall fuel s s' b, 0 <= fx_used s -> quiet (fx_snaps s) ->
    fx_loop env p fuel s = (s', b) -> quiet (fx_snaps s') /\ 0 <= fx_used s'.
  Proof.
    intros EO. induction fuel as [|fuel IH]; intros s s' b U Q E; cbn [fx_loop] in E; destruct (fx_queue s) as [|bid q];
      try (injection E as <- _; auto; fail).
    set (s0 := mkFx (fx_states s) q (fx_disc s) (fx_snaps s) (fx_used s)) in *.
    assert (X : quiet (fx_snaps (fx_step env p bid s0)) /\ 0 <= fx_used (fx_step env p bid s0)).
    { unfold fx_step. destruct (fx_states s0 bid) as [stk0|]; [|auto]. destruct (nth_error (b_blocks p) bid) as [bl|]; [|auto].
      destruct (interp_block env (b_insts p) (blk_insts bl) stk0 (fx_snaps s0) (fx_used s0)) as [[[ok stk'] sn'] u'] eqn:EB.
      destruct (quiet_interp _ EO _ _ _ _ _ _ _ _ U Q EB) as [Q' U']. destruct ok; [|auto]. destruct (propagate _ _ _ _ _). auto. }
    eapply IH; [apply X|apply X|exact E].
  Qed.
  Lemma quiet_invalidate p states disc local rs sn rs' sn' : invalidate p states disc local rs sn = Some (rs', sn') ->
    quiet local -> quiet sn -> quiet sn'.
  Proof.
    unfold invalidate. destruct (suspects p states disc) as [sus|]; [|discriminate]. intros E QL. injection E as _ <-.
    generalize (seq 0 (length (b_blocks p))). intros l. revert sn. induction l as [|b l IH]; intros sn Q; cbn [fold_left]; [exact Q|].
    apply IH. destruct (sus b); [|exact Q]. destruct (nth_error (b_blocks p) b); [|exact Q]. apply quiet_restore; assumption.
  Qed.
  Definition qst (p : bc) : Prop := map d_op (b_insts p) = ops /\ quiet (b_snaps p) /\ 0 <= b_used p.
  Lemma quiet_analyze_local p p' : qst p -> map d_op (b_insts p') = ops ->
    (forall p1, refresh_cfg p = Some p1 -> map d_op (b_insts p1) = ops) -> analyze_local env p = Some p' -> qst p'.
  Proof.
    intros (O & Q & U) O' RF E. unfold analyze_local in E. destruct (refresh_cfg p) as [p1|] eqn:E1; [|discriminate].
    destruct (refresh_keeps _ _ E1) as (_ & S1 & U1 & _). specialize (RF _ eq_refl).
    destruct (block_analysis_local env p1) as [p2|] eqn:E2; [|discriminate]. destruct (refresh_keeps _ _ E) as (_ & S3 & U3 & _).
    unfold block_analysis_local in E2. destruct (fold_left _ _ _) as [rs [sn used]] eqn:EF.
    assert (X : quiet sn /\ 0 <= used) by (eapply quiet_local; [exact RF| | |exact EF]; cbn; [rewrite U1; exact U|rewrite S1; exact Q]). destruct X as [Q' U'].
    destruct (commit_resolved rs _) as [p3|] eqn:EC; [|discriminate]. cbn in E2. injection E2 as <-.
    destruct (commit_resolved_keeps _ _ _ EC) as (_ & S2 & U2). cbn in *. split; [exact O'|]. rewrite S3, U3, S2, U2. auto.
  Qed.
  Lemma quiet_analyze_global p p' : qst p -> map d_op (b_insts p') = ops -> analyze_global env p = Some p' -> qst p'.
  Proof.
    intros (O & Q & U) O' E. unfold analyze_global in E. destruct (block_analysis env p (b_snaps p)) as [p1|] eqn:E1; [|discriminate].
    destruct (refresh_keeps _ _ E) as (_ & S3 & U3 & _). split; [exact O'|]. rewrite S3, U3. clear E S3 U3.
    unfold block_analysis in E1. destruct (run_abstract_interp env p (b_snaps p)) as [[[rs sn] used]|] eqn:ER; [|discriminate].
    assert (X : quiet sn /\ 0 <= used).
    { unfold run_abstract_interp in ER. destruct (run_fixpoint env p) as [s b] eqn:EX. unfold run_fixpoint in EX.
      assert (X : quiet (fx_snaps s) /\ 0 <= fx_used s) by (eapply quiet_fx; [exact O| | |exact EX]; cbn; assumption). destruct X as [QF UF].
      assert (QS : quiet (if b then fx_snaps s else restore_from (fx_snaps s) (seq 0 (length (b_insts p))) (b_snaps p))) by (destruct b; [exact QF|apply quiet_restore; assumption]).
      destruct (_ || _).
      - destruct (invalidate _ _ _ _ _ _) as [[rs' sn']|] eqn:EV; [|discriminate]. injection ER as <- <- <-. split; [eapply quiet_invalidate; eauto|exact UF].
      - injection ER as <- <- <-. auto. }
    destruct (_ || _).
    - destruct (commit_resolved rs (with_snaps p sn used)) as [q|] eqn:EC; [|discriminate]. cbn in E1. injection E1 as <-.
      destruct (commit_resolved_keeps _ _ _ EC) as (_ & S2 & U2). cbn in *. rewrite S2, U2. exact X.
    - cbn in E1. injection E1 as <-. exact X.
  Qed.
  Lemma quiet_merge_groups local : quiet local -> forall gs p p', merge_groups local p gs = Some p' -> quiet (b_snaps p) -> quiet (b_snaps p').
  Proof.
    intros QL. assert (D : forall c ds p p', merge_dups c p ds = Some p' -> b_snaps p' = b_snaps p).
    { intros c. induction ds as [|d ds IH]; intros p p' E; cbn [merge_dups] in E; [congruence|].
      destruct (merge_dup c p d) as [p1|] eqn:E1; [|discriminate]. rewrite (IH _ _ E). unfold merge_dup in E1.
      destruct (nth_error _ _); [|discriminate]. destruct (merge_multi _ _ _ _); [|discriminate]. injection E1 as <-. reflexivity. }
    induction gs as [|g gs IH]; intros p p' E Q; cbn [merge_groups] in E; [injection E as <-; exact Q|].
    destruct (merge_group local p g) as [p1|] eqn:E1; [|discriminate]. eapply IH; [exact E|]. unfold merge_group in E1.
    destruct g as [|c [|d ds]]; [injection E1 as <-; exact Q..|]. destruct (nth_error _ _); [|discriminate]. rewrite (D _ _ _ _ E1). cbn. apply quiet_restore; assumption.
  Qed.
  Lemma quiet_dedup ord local : quiet local -> forall fuel p p', dedup_blocks ord fuel local p = Some p' -> quiet (b_snaps p) -> quiet (b_snaps p').
  Proof.
    intros QL. induction fuel as [|f IH]; intros p p' E Q; cbn [dedup_blocks] in E; unfold dedup_once in E;
      destruct (merge_groups local p _) as [p1|] eqn:E1; try discriminate; destruct (_ =? 0)%nat; try discriminate;
      try (injection E as <-; exact (quiet_merge_groups _ QL _ _ _ E1 Q)).
    destruct (refresh_cfg p1) as [p2|] eqn:E2; [|discriminate E]. destruct (refresh_keeps _ _ E2) as (_ & S & _ & _).
    eapply IH; [exact E|]. rewrite S. exact (quiet_merge_groups _ QL _ _ _ E1 Q).
  Qed.
End Quiet.
Lemma analyze_quiet env Qp prog p : tops env Qp -> raw prog -> analyze env prog = Some p -> quiet Qp (map d_op prog) (b_snaps p).
Proof.
  intros LIM RAW. unfold analyze. destruct (analyze_local env (initial prog)) as [pl|] eqn:E1; [|discriminate]. intros E2.
  pose proof (initial_start _ RAW) as SI. destruct (local_start _ _ SI _ E1) as (S1 & _ & L1). destruct (global_start _ _ S1 _ E2) as (S2 & _ & L2). cbn in L1.
  assert (Q0 : qst Qp (map d_op prog) (initial prog)) by (repeat split; [intros i op v _ _; discriminate|cbn; lia]).
  assert (Q1 : qst Qp (map d_op prog) pl).
  { eapply quiet_analyze_local; eauto. intros p1 R. destruct (start_refresh _ _ SI R) as (_ & _ & X). exact X. }
  assert (Q2 : qst Qp (map d_op prog) p) by (eapply quiet_analyze_global; eauto; congruence). apply Q2.
Qed.
Lemma analyze_dedup_quiet ord env Qp prog p : tops env Qp -> raw prog -> analyze_dedup ord env prog = Some p -> quiet Qp (map d_op prog) (b_snaps p).
Proof.
  intros LIM RAW. unfold analyze_dedup. destruct (analyze_local env (initial prog)) as [pl|] eqn:E1; [|discriminate].
  destruct (analyze_global env pl) as [pg|] eqn:E2; [|discriminate].
  destruct (dedup_blocks _ _ _ _) as [pd|] eqn:E3; [|discriminate]. intros E. destruct (refresh_keeps _ _ E) as (_ & S & _ & _). rewrite S.
  pose proof (initial_start _ RAW) as SI. destruct (local_start _ _ SI _ E1) as (S1 & _ & L1). cbn in L1.
  assert (Q0 : qst Qp (map d_op prog) (initial prog)) by (repeat split; [intros i op v _ _; discriminate|cbn; lia]).
  assert (Q1 : qst Qp (map d_op prog) pl).
  { eapply quiet_analyze_local; eauto. intros p1 R. destruct (start_refresh _ _ SI R) as (_ & _ & X). exact X. }
  eapply (quiet_dedup Qp (map d_op prog) ord (b_snaps pl)); [apply Q1|exact E3|]. apply (analyze_quiet env Qp prog pg LIM RAW). unfold analyze. rewrite E1. exact E2.
Qed.
