(** Control flow of analysed programs obeys the discipline that sections rely on ([goes_to]), with or
    without deduplication, and the passes leave the gas and stack effects of instructions alone. *)
From Verif Require Import InstModel BlockModel FlowSpec CfgProof BlockProof StructProof SummaryProof DedupModel DedupProof DedupRedir DedupLive DedupStart DseModel SectionsModel SectionsSpec.
From Coq Require Import Permutation Lia.
Open Scope Z_scope.

(** ** Opcodes, gas, stack effects and section data through deduplication. *)
Lemma kept_upto l l' : length l' = length l -> (forall k d', nth_error l' k = Some d' -> exists d, nth_error l k = Some d /\ upto_reach d d') -> kept_list l l'.
Proof. intros L H. split; [exact L|]. intros i d X. destruct (H i d X) as (e & He & U). exists e. split; [exact He|]. apply (upto_reach_keeps _ _ U). Qed.
Lemma kept_upd k f l : (forall d, StructProof.keeps d (f d)) -> kept_list l (upd_nth k f l).
Proof.
  intros F. split; [apply upd_nth_length|]. intros i d' H. rewrite nth_upd_nth in H. destruct (Nat.eqb_spec i k) as [-> |N].
  - destruct (nth_error l k) as [d|] eqn:E; [|discriminate]. cbn in H. injection H as <-. exists d. split; [reflexivity|apply F].
  - exists d'. split; [exact H|apply StructProof.keeps_refl].
Qed.
Lemma kept_mark dyn l l' b : mark_once dyn None 0 l = (l', b) -> kept_list l l'.
Proof.
  intros E. destruct (mark_once_spec _ _ _ _ _ _ E) as (L & P & _). split; [exact L|]. intros i d H. destruct (P i d H) as (e & He & U).
  exists e. split; [exact He|]. destruct U as [-> | ->]; [apply StructProof.keeps_refl|repeat split; auto].
Qed.
Lemma kept_mark_dead fuel : forall p p', mark_dead_code fuel p = Some p' -> kept_list (b_insts p) (b_insts p').
Proof.
  induction fuel as [|f IH]; intros p p' E; cbn [mark_dead_code] in E;
    destruct (mark_once (b_dyn p) None 0 (b_insts p)) as [l b] eqn:Em; pose proof (kept_mark _ _ _ _ Em) as K.
  - destruct b; [discriminate|]. injection E as <-. exact K.
  - destruct b; [|injection E as <-; exact K]. destruct (recompute_reachable _) as [p2|] eqn:Er; [|discriminate].
    destruct (recompute_reachable_shape _ _ Er) as (L & P & _). eapply kept_trans; [exact K|]. eapply kept_trans; [apply kept_upto; [exact L|exact P]|exact (IH _ _ E)].
Qed.
Lemma kept_refresh p p' : refresh_cfg p = Some p' -> kept_list (b_insts p) (b_insts p').
Proof.
  unfold refresh_cfg. destruct (recompute_reachable (recompute_dyn p)) as [p1|] eqn:E1; [|discriminate].
  destruct (recompute_reachable_shape _ _ E1) as (L & P & _). destruct (mark_dead_code _ p1) as [p2|] eqn:E2; [|discriminate].
  unfold compress_redirects. destruct (compress _ _); [|discriminate]. intros E. injection E as <-. cbn.
  eapply kept_trans; [apply (kept_upto _ _ L P)|exact (kept_mark_dead _ _ _ E2)].
Qed.
Lemma kept_kill idx : forall l, kept_list l (kill l idx).
Proof.
  unfold kill. induction idx as [|i idx IH]; intros l; cbn [fold_left]; [apply kept_refl|]. eapply kept_trans; [|apply IH]. apply kept_upd. intros d. repeat split; auto.
Qed.
Lemma kept_retarget ps a b : forall l, kept_list l (retarget ps a b l).
Proof.
  unfold retarget. induction ps as [|i ps IH]; intros l; cbn [fold_left]; [apply kept_refl|]. eapply kept_trans; [|apply IH].
  destruct (has (jumps_to a) l i); [|apply kept_refl]. apply kept_upd. intros d. repeat split; auto.
Qed.
Lemma kept_merge_dup c p d p' : merge_dup c p d = Some p' -> kept_list (b_insts p) (b_insts p').
Proof.
  unfold merge_dup. destruct (nth_error (b_blocks p) d) as [db|]; [|discriminate]. destruct (merge_multi _ _ _ _); [|discriminate]. intros E. injection E as <-. cbn.
  eapply kept_trans; [|apply kept_retarget]. destruct (_ && _ && _); [|apply kept_kill]. eapply kept_trans; [apply kept_kill|]. apply kept_upd. intros x. repeat split; auto.
Qed.
Lemma kept_merge_dups c : forall ds p p', merge_dups c p ds = Some p' -> kept_list (b_insts p) (b_insts p').
Proof.
  induction ds as [|d ds IH]; intros p p' E; cbn in E; [injection E as <-; apply kept_refl|].
  destruct (merge_dup c p d) as [p1|] eqn:E1; [|discriminate]. eapply kept_trans; [exact (kept_merge_dup _ _ _ _ E1)|exact (IH _ _ E)].
Qed.
Lemma kept_merge_groups local : forall gs p p', merge_groups local p gs = Some p' -> kept_list (b_insts p) (b_insts p').
Proof.
  induction gs as [|g gs IH]; intros p p' E; cbn in E; [injection E as <-; apply kept_refl|].
  destruct (merge_group local p g) as [p1|] eqn:E1; [|discriminate]. eapply kept_trans; [|exact (IH _ _ E)].
  unfold merge_group in E1. destruct g as [|c [|d ds]]; try (injection E1 as <-; apply kept_refl).
  destruct (nth_error (b_blocks p) c) as [cb|]; [|discriminate]. exact (kept_merge_dups _ _ _ _ E1).
Qed.
Lemma kept_dedup ord local : forall fuel p p', dedup_blocks ord fuel local p = Some p' -> kept_list (b_insts p) (b_insts p').
Proof.
  assert (ONE : forall p p1 n, dedup_once ord local p = Some (p1, n) -> kept_list (b_insts p) (b_insts p1)).
  { intros p p1 n E. unfold dedup_once in E. destruct (merge_groups local p (ord (groups p))) as [q|] eqn:EM; [|discriminate]. injection E as <- _. exact (kept_merge_groups _ _ _ _ EM). }
  induction fuel as [|f IH]; intros p p' E; cbn [dedup_blocks] in E; destruct (dedup_once ord local p) as [[p1 n]|] eqn:E1; try discriminate;
    pose proof (ONE _ _ _ E1) as L1; destruct (n =? 0)%nat; try discriminate; try (injection E as <-; exact L1).
  destruct (refresh_cfg p1) as [p2|] eqn:E2; [|discriminate]. eapply kept_trans; [exact L1|]. eapply kept_trans; [exact (kept_refresh _ _ E2)|eauto].
Qed.

(** ** The control-flow discipline. *)
Lemma next_live_spec l : forall i d, next_live l i = Some d -> exists n, (i < n)%nat /\ nth_error l n = Some d /\ is_dead d = false /\
  forall k e, (i < k < n)%nat -> nth_error l k = Some e -> is_dead e = true.
Proof.
  assert (G : forall m d, find (fun d => negb (is_dead d)) m = Some d -> exists n, nth_error m n = Some d /\ is_dead d = false /\
    forall k e, (k < n)%nat -> nth_error m k = Some e -> is_dead e = true).
  { induction m as [|x m IH]; intros d E; [discriminate|]. cbn in E. destruct (is_dead x) eqn:D; cbn in E.
    - destruct (IH d E) as (n & H & Hd & A). exists (S n). split; [exact H|]. split; [exact Hd|]. intros [|k] e L X; cbn in X; [congruence|]. apply (A k e); [lia|exact X].
    - injection E as <-. exists 0%nat. split; [reflexivity|]. split; [exact D|]. intros; lia. }
  intros i d E. destruct (G _ _ E) as (n & H & D & A). exists (S i + n)%nat. rewrite nth_skipn in H. split; [lia|]. split; [exact H|]. split; [exact D|].
  intros k e L X. apply (A (k - S i)%nat e); [lia|]. rewrite nth_skipn. replace (S i + (k - S i))%nat with k by lia. exact X.
Qed.
Lemma prev_live_here l : forall i d, nth_error l i = Some d -> is_dead d = false -> prev_live l (S i) = Some d.
Proof.
  intros i d E Hd. unfold prev_live.
  assert (H : firstn (S i) l = firstn i l ++ [d]).
  { clear -E. revert i E. induction l as [|a ll IH]; intros [|i] E; cbn in *; try discriminate.
    - inversion E. reflexivity.
    - f_equal. apply IH. assumption. }
  rewrite H, fold_left_app. cbn. rewrite Hd. reflexivity.
Qed.

Section Ready.
  Context (p : bc) (istanbul : bool).
  Hypothesis RD : ready p.
  Notation l := (b_insts p). Notation dyn := (b_dyn p).

  Lemma hd_entry u : DedupLive.hd p u -> entry dyn istanbul l u.
  Proof.
    destruct RD as (LI & RI & XR & FL & RB). intros [(d & Hd & D) B]. exists d. split; [exact Hd|]. split; [exact D|].
    destruct B as [J|B]; [left; apply (jt_rjd p XR u d Hd), J|].
    destruct u as [|j]; [right; exact Logic.I|].
    destruct (lv_sup _ LI (S j)) as [X|[J|(k & e & Ek & He & De & _)]]; [exists d; auto|discriminate|left; apply (jt_rjd p XR (S j) d Hd), J|].
    injection Ek as <-. right. rewrite (prev_live_here l j e He De). unfold ends_section. rewrite (B j e eq_refl He De). apply orb_true_iff. left. apply orb_true_r.
  Qed.
  Lemma zero_entry : live_at l 0 -> entry dyn istanbul l 0.
  Proof. intros (d & Hd & D). exists d. split; [exact Hd|]. split; [exact D|]. right. exact Logic.I. Qed.

  Lemma jump_ends d : is_jump d = true -> ends_section istanbul d = true.
  Proof. intros J. unfold ends_section, is_branching. rewrite J. apply orb_true_iff. left. apply orb_true_r. Qed.

  (** Fall-through: the next instruction, or where its block was redirected to. *)
  Lemma fall_goes i d u : nth_error l i = Some d -> is_dead d = false -> can_fall_through d = true -> ends (b_redirects p) (S i) u ->
    goes_to dyn istanbul l i u d.
  Proof.
    destruct RD as (LI & RI & XR & FL & RB). intros Hd D CF EN. destruct (lookup (S i) (b_redirects p)) as [v|] eqn:X.
    - right. split; [apply hd_entry; eapply (lv_redir _ LI); [|exact EN]; congruence|]. right.
      destruct (next_live l i) as [d'|] eqn:N; [|exact Logic.I]. destruct (next_live_spec _ _ _ N) as (n & Ln & Hn & Dn & Dead).
      apply (jt_rjd p XR n d' Hn). destruct (lv_sup _ LI n) as [Z|[J|(k & e & Ek & He & De & _)]]; [exists d'; auto|lia|exact J|]. exfalso.
      assert (ND : ~ live_at l (S i)) by (apply (ri_dead _ RI (S i) v), lookup_in, X).
      destruct (Nat.eq_dec k i) as [-> |NE]; [apply ND; exists d'; subst n; auto|].
      assert (is_dead e = true) by (apply (Dead k e); [lia|exact He]). congruence.
    - inversion EN as [t H|t n u' H]; subst; [|congruence]. left. split; [reflexivity|]. exact (lv_fall _ LI i d Hd D CF X).
  Qed.
  Lemma jump_goes i d t u : nth_error l i = Some d -> is_dead d = false -> tg p i t -> ends (b_redirects p) t u -> goes_to dyn istanbul l i u d.
  Proof.
    intros Hd D T EN. right. split.
    - apply hd_entry, (linv_dst p i u (proj1 RD)); [exists d; auto|]. exists t. auto.
    - left. apply jump_ends. destruct T as (d' & Hd' & SJ & _). assert (d' = d) by congruence. subst d'. unfold is_static_jump in SJ. apply andb_true_iff in SJ. apply SJ.
  Qed.
  Lemma dynamic_goes i d t u : nth_error l i = Some d -> is_dead d = false -> is_jump d = true -> f_static (d_flags d) = false -> opj p t -> ends (b_redirects p) t u ->
    goes_to dyn istanbul l i u d.
  Proof.
    pose proof RD as (LI & RI & XR & FL & RB). intros Hd D J FS OJ EN.
    assert (DY : dynlive p) by (exists i, d; split; [exact Hd|]; unfold unresolved; rewrite J, FS, D; reflexivity).
    pose proof (lv_dyn _ LI DY t OJ) as LV.
    assert (LK : lookup t (b_redirects p) = None).
    { destruct (lookup t (b_redirects p)) as [v|] eqn:X; [|reflexivity]. apply lookup_in in X. exfalso. exact (ri_dead _ RI t v X LV). }
    inversion EN as [t' H|t' n u' H]; subst; [|congruence]. right. split; [|left; apply jump_ends, J].
    apply hd_entry. split; [exact LV|]. left. split; [exact OJ|left; exact DY].
  Qed.
End Ready.

(** ** Dead store elimination only marks instructions. *)
Definition noops (l l' : list idata) : Prop := length l' = length l /\
  forall i d d', nth_error l i = Some d -> nth_error l' i = Some d' -> d' = d \/ d' = set_noop d.
Lemma noops_map l : forall l', noops l l' -> map set_noop l' = map set_noop l.
Proof.
  induction l as [|d l IH]; intros [|d' l'] [L H]; try discriminate; [reflexivity|]. cbn. f_equal.
  - destruct (H 0%nat d d' eq_refl eq_refl) as [-> | ->]; reflexivity.
  - apply IH. split; [cbn in L; congruence|]. intros i. apply (H (S i)).
Qed.
Lemma prev_live_map l k : prev_live (map set_noop l) k = option_map set_noop (prev_live l k).
Proof.
  unfold prev_live. rewrite firstn_map. change None with (option_map set_noop None) at 1. generalize (@None idata). generalize (firstn k l).
  induction l0 as [|d m IH]; intros a; cbn [map fold_left]; [reflexivity|]. rewrite <- IH. f_equal. change (is_dead (set_noop d)) with (is_dead d). destruct (is_dead d); reflexivity.
Qed.
Lemma next_live_map l i : next_live (map set_noop l) i = option_map set_noop (next_live l i).
Proof.
  unfold next_live. rewrite skipn_map. generalize (skipn (S i) l). induction l0 as [|d m IH]; [reflexivity|]. cbn [map find].
  change (is_dead (set_noop d)) with (is_dead d). destruct (is_dead d); cbn; [exact IH|reflexivity].
Qed.
Lemma entry_map dyn ist l k : entry dyn ist (map set_noop l) k <-> entry dyn ist l k.
Proof.
  unfold entry. rewrite prev_live_map, nth_error_map. split.
  - intros (d & H & D & X). destruct (nth_error l k) as [e|]; [|discriminate]. cbn in H. injection H as <-. exists e. split; [reflexivity|]. split; [exact D|].
    destruct X as [X|X]; [left; exact X|right]. destruct (prev_live l k); exact X.
  - intros (d & H & D & X). rewrite H. exists (set_noop d). split; [reflexivity|]. split; [exact D|]. destruct X as [X|X]; [left; exact X|right]. destruct (prev_live l k); exact X.
Qed.
Lemma entry_noops dyn ist l l' k : noops l l' -> entry dyn ist l k -> entry dyn ist l' k.
Proof. intros N E. apply entry_map. rewrite (noops_map _ _ N). apply entry_map, E. Qed.
Lemma goes_noops dyn ist l l' i j d d' : noops l l' -> nth_error l i = Some d -> nth_error l' i = Some d' -> goes_to dyn ist l i j d -> goes_to dyn ist l' i j d'.
Proof.
  intros N H H' [(-> & e & He & De)|(E & X)].
  - left. split; [reflexivity|]. assert (L : (S i < length l')%nat) by (rewrite (proj1 N); apply nth_error_Some; congruence).
    destruct (nth_error l' (S i)) as [e'|] eqn:He'; [|apply nth_error_None in He'; lia]. exists e'. split; [reflexivity|].
    destruct (proj2 N _ _ _ He He') as [-> | ->]; exact De.
  - right. split; [eapply entry_noops; eauto|]. destruct X as [X|X].
    + left. destruct (proj2 N _ _ _ H H') as [-> | ->]; exact X.
    + right. assert (M : option_map set_noop (next_live l' i) = option_map set_noop (next_live l i)) by (rewrite <- !next_live_map, (noops_map _ _ N); reflexivity).
      destruct (next_live l' i) as [a|], (next_live l i) as [b|]; try exact Logic.I; try discriminate. cbn in M. injection M as M.
      unfold is_reachable_jumpdest, is_jumpdest in *. congruence.
Qed.
