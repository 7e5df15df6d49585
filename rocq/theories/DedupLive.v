(** Deduplication keeps every destination of a live instruction alive. *)
From Verif Require Import DedupModel FlowSpec CfgProof BlockProof ProgramProof AnalysisProof DedupProof CommitProof DedupRedir.
From Coq Require Import ZifyBool Permutation Sorted.
Open Scope Z_scope.

(** ** The partition into blocks when dead code may follow an instruction that can fall through. *)
Section Ranges.
  Variables (dyn : bool) (all : list idata).
  Hypothesis SUP : forall i d, nth_error all (S i) = Some d -> is_dead d = false ->
    is_reachable_jumpdest dyn d = true \/ live_at all i.

  Lemma nth_of_skip i d l : skipn i all = d :: l -> nth_error all i = Some d.
  Proof. intros SK. rewrite <- (Nat.add_0_r i), <- nth_skipn, SK. reflexivity. Qed.

  Definition start_good (s : nat) : Prop := is_leader dyn all s = true.
  Lemma build_live : forall l i cur pending, skipn i all = l -> (i <= length all)%nat ->
    match cur with
    | Some (s, e) => (s < e <= i)%nat /\ chain dyn all (s, e) /\ start_good s /\ (live_at all (i - 1) -> e = i /\ pending = false)
    | None => forall j, (j < i)%nat -> ~ live_at all j
    end ->
    let rs := build dyn all i l cur pending in
    (forall r, In r rs -> chain dyn all r /\ start_good (fst r)) /\
    (forall j, live_at all j -> (i <= j)%nat \/ (exists s e, cur = Some (s, e) /\ (s <= j < e)%nat) -> exists r, In r rs /\ in_range j r = true) /\
    (forall j, live_at all j -> (i <= j)%nat -> is_leader dyn all j = true -> exists r, In r rs /\ fst r = j) /\
    (forall s e, cur = Some (s, e) -> exists e' rs', rs = (s, e') :: rs' /\ (e <= e')%nat).
  Proof.
    induction l as [|d l IH]; intros i cur pending Hl Hi HC; cbn [build].
    - assert (Hlen : (length all <= i)%nat).
      { assert (H : length (skipn i all) = 0%nat) by (rewrite Hl; reflexivity). rewrite skipn_length in H. lia. }
      assert (Hlt : forall j, live_at all j -> (j < i)%nat) by (intros j (x & Hx & _); apply nth_lt in Hx; lia).
      destruct cur as [[s e]|]; cbn.
      + destruct HC as (H1 & H2 & H3 & H4). split; [intros r [<- |[]]; auto|]. split; [|split].
        * intros j Hj [Hle|(s0 & e0 & E & Hin)]; [specialize (Hlt j Hj); lia|]. injection E as <- <-.
          exists (s, e). split; [left; reflexivity|]. unfold in_range. cbn [fst snd]. lia.
        * intros j Hj Hle. specialize (Hlt j Hj). lia.
        * intros s0 e0 E. injection E as <- <-. exists e, []. auto.
      + split; [intros r []|]. split; [|split; [|discriminate]].
        * intros j Hj. exfalso. apply (HC j); auto.
        * intros j Hj. exfalso. apply (HC j); auto.
    - pose proof (nth_of_skip _ _ _ Hl) as Hn. pose proof (skipn_tail d l i all Hl) as Hl'.
      assert (Hi' : (S i <= length all)%nat) by (apply nth_lt in Hn; lia).
      destruct (is_dead d) eqn:Ed.
      + assert (ND : ~ live_at all i) by (intros (x & Hx & Dx); congruence).
        destruct (IH (S i) cur (pending || is_leader dyn all i) Hl' Hi') as (C & Cov & Lead & Fst).
        { destruct cur as [[s e]|].
          - destruct HC as (H1 & H2 & H3 & H4). split; [lia|]. split; [exact H2|]. split; [exact H3|].
            replace (S i - 1)%nat with i by lia. intros X. contradiction.
          - intros j Hj. destruct (Nat.eq_dec j i) as [-> |]; [exact ND|]. apply HC. lia. }
        split; [exact C|]. split; [|split; [|exact Fst]].
        * intros j Hj Hor. apply (Cov j Hj). destruct Hor as [Hle|Hor]; [|right; exact Hor].
          left. assert (j <> i) by (intros ->; contradiction). lia.
        * intros j Hj Hle. apply (Lead j Hj). assert (j <> i) by (intros ->; contradiction). lia.
      + assert (LV : live_at all i) by (exists d; auto).
        assert (ONE : chain dyn all (i, S i)).
        { intros k Hk. cbn in Hk. assert (k = i) by lia. subst k. exists d. split; [exact Hn|]. split; [exact Ed|]. cbn. lia. }
        assert (NEW : start_good i -> let rs := build dyn all (S i) l (Some (i, S i)) false in
          (forall r, In r rs -> chain dyn all r /\ start_good (fst r)) /\
          (forall j, live_at all j -> (i <= j)%nat -> exists r, In r rs /\ in_range j r = true) /\
          (forall j, live_at all j -> (i <= j)%nat -> is_leader dyn all j = true -> exists r, In r rs /\ fst r = j)).
        { intros SG rs. destruct (IH (S i) (Some (i, S i)) false Hl' Hi') as (C & Cov & Lead & Fst).
          - split; [lia|]. split; [exact ONE|]. split; [exact SG|]. intros _. auto.
          - split; [exact C|]. split.
            + intros j Hj Hle. apply (Cov j Hj). destruct (Nat.eq_dec j i) as [-> |]; [right; exists i, (S i); split; [reflexivity|lia]|left; lia].
            + intros j Hj Hle HL. destruct (Nat.eq_dec j i) as [-> |]; [|apply (Lead j Hj); [lia|exact HL]].
              destruct (Fst _ _ eq_refl) as (e' & rs' & E & _). unfold rs. rewrite E. exists (i, e'). split; [left; reflexivity|reflexivity]. }
        assert (LEAD : i = 0%nat \/ ~ live_at all (i - 1) -> start_good i).
        { intros N. unfold start_good, is_leader. destruct i as [|k]; [reflexivity|]. rewrite Hn. destruct N as [N|N]; [discriminate|]. destruct (SUP k d Hn Ed) as [X|X].
          - rewrite X. apply orb_true_r.
          - exfalso. apply N. replace (S k - 1)%nat with k by lia. exact X. }
        destruct cur as [[s e]|].
        * destruct HC as (H1 & H2 & H3 & H4).
          destruct (is_leader dyn all i || pending) eqn:Elp.
          -- assert (SG : start_good i).
             { apply orb_true_iff in Elp as [X|X]; [exact X|]. apply LEAD. right. intros N. destruct (H4 N). congruence. }
             destruct (NEW SG) as (C & Cov & Lead). split; [intros r [<- |Hr]; auto|]. split; [|split].
             ++ intros j Hj [Hle|(s0 & e0 & E & Hin)].
                ** destruct (Cov j Hj Hle) as (r & Hr & X). exists r. split; [right; exact Hr|exact X].
                ** injection E as <- <-. exists (s, e). split; [left; reflexivity|]. unfold in_range. cbn [fst snd]. lia.
             ++ intros j Hj Hle HL. destruct (Lead j Hj Hle HL) as (r & Hr & X). exists r. split; [right; exact Hr|exact X].
             ++ intros s0 e0 E. injection E as <- <-. eexists _, _. split; [reflexivity|lia].
          -- apply orb_false_iff in Elp as [El Ep].
             assert (LP : live_at all (i - 1)).
             { destruct i as [|k]; [lia|]. destruct (SUP k d Hn Ed) as [X|X]; [|replace (S k - 1)%nat with k by lia; exact X].
               exfalso. unfold is_leader in El. rewrite Hn, X, orb_true_r in El. discriminate. }
             destruct (H4 LP) as [-> _].
             assert (EXT : chain dyn all (s, S i)).
             { intros k Hk. cbn in Hk. destruct (Nat.eq_dec k i) as [-> |Nk]; [exists d; split; [exact Hn|]; split; [exact Ed|]; cbn; lia|].
               destruct (H2 k) as (x & Hx & Dx & Nx); [cbn; lia|]. exists x. split; [exact Hx|]. split; [exact Dx|]. intros _.
               destruct (Nat.eq_dec (S k) i) as [E|E]; [|apply Nx; cbn; lia]. subst i. split; [|exact El].
               unfold is_leader, leader_before in El. rewrite Hx, Dx in El. cbn in El. apply orb_false_iff in El as [El _]. apply orb_false_iff in El as [El _]. exact El. }
             destruct (IH (S i) (Some (s, S i)) false Hl' Hi') as (C & Cov & Lead & Fst).
             { split; [lia|]. split; [exact EXT|]. split; [exact H3|]. intros _. auto. }
             split; [exact C|]. split; [|split].
             ++ intros j Hj Hor. apply (Cov j Hj). destruct Hor as [Hle|(s0 & e0 & E & Hin)].
                ** destruct (Nat.eq_dec j i) as [-> |]; [right; exists s, (S i); split; [reflexivity|lia]|left; lia].
                ** injection E as <- <-. right. exists s, (S i). split; [reflexivity|lia].
             ++ intros j Hj Hle HL. apply (Lead j Hj); [|exact HL]. assert (j <> i) by (intros ->; congruence). lia.
             ++ intros s0 e0 E. injection E as <- <-. destruct (Fst _ _ eq_refl) as (e' & rs' & -> & Le). exists e', rs'. split; [reflexivity|lia].
        * assert (SG : start_good i) by (apply LEAD; destruct i as [|k]; [left; reflexivity|right; apply HC; lia]).
          destruct (NEW SG) as (C & Cov & Lead). split; [exact C|]. split; [|split; [exact Lead|discriminate]].
          intros j Hj [Hle|(s0 & e0 & E & _)]; [exact (Cov j Hj Hle)|discriminate].
  Qed.
  Lemma ranges_live : let rs := ranges dyn all in
    (forall r, In r rs -> chain dyn all r /\ start_good (fst r)) /\
    (forall j, live_at all j -> exists r, In r rs /\ in_range j r = true) /\
    (forall j, live_at all j -> is_leader dyn all j = true -> exists r, In r rs /\ fst r = j).
  Proof.
    destruct (build_live all 0 None false eq_refl ltac:(lia)) as (A & B & C & _); [intros j Hj; lia|].
    split; [exact A|]. split; intros j Hj; [apply B; [exact Hj|left; lia]|intros HL; apply C; [exact Hj|lia|exact HL]].
  Qed.
End Ranges.

(** ** Where instructions lead. *)
(** [t] is a recorded target of the jump [i], before redirects. *)
Definition tg (p : bc) (i t : nat) : Prop := exists d, nth_error (b_insts p) i = Some d /\ is_static_jump d = true /\ f_invalid (d_flags d) = false /\
  (if f_multi (d_flags d) then exists ts, b_multi p i = Some ts /\ In t ts else t = d_target d).
Definition dst (p : bc) (i u : nat) : Prop := exists t, tg p i t /\ ends (b_redirects p) t u.
Definition dynlive (p : bc) : Prop := exists i d, nth_error (b_insts p) i = Some d /\ unresolved d = true.
Definition opj (p : bc) (u : nat) : Prop := exists d, nth_error (b_insts p) u = Some d /\ is_jumpdest d = true.
Definition jt (p : bc) (u : nat) : Prop := opj p u /\ (dynlive p \/ exists i, live_at (b_insts p) i /\ dst p i u).
Definition follows (p : bc) (k : nat) : Prop := exists j d, k = S j /\ nth_error (b_insts p) j = Some d /\ is_dead d = false /\
  (can_fall_through d = true \/ (f_multi (d_flags d) = false /\ tg p j k)).
Definition hd (p : bc) (u : nat) : Prop := live_at (b_insts p) u /\
  (jt p u \/ forall j d, u = S j -> nth_error (b_insts p) j = Some d -> is_dead d = false -> is_branching d = true).
Record linv (p : bc) : Prop := {
  lv_sup : forall k, live_at (b_insts p) k -> k = 0%nat \/ jt p k \/ follows p k;
  lv_fall : forall i d, nth_error (b_insts p) i = Some d -> is_dead d = false -> can_fall_through d = true ->
    lookup (S i) (b_redirects p) = None -> live_at (b_insts p) (S i);
  lv_jump : forall i t, live_at (b_insts p) i -> tg p i t -> lookup t (b_redirects p) = None -> hd p t;
  lv_redir : forall k u, lookup k (b_redirects p) <> None -> ends (b_redirects p) k u -> hd p u;
  lv_near : forall i t, live_at (b_insts p) i -> tg p i t -> opj p t \/
    ((exists d, nth_error (b_insts p) i = Some d /\ f_multi (d_flags d) = false) /\ (t <= S i)%nat);
  lv_dyn : dynlive p -> forall k, opj p k -> live_at (b_insts p) k;
  lv_multi : forall i d, nth_error (b_insts p) i = Some d -> is_dead d = false -> f_multi (d_flags d) = true ->
    is_static_jump d = true /\ f_invalid (d_flags d) = false
}.

(** ** None of this looks at the reachable bits or at the shape of the redirect map. *)
Record sameup (p p' : bc) : Prop := {
  su_len : length (b_insts p') = length (b_insts p);
  su_nth : forall k d', nth_error (b_insts p') k = Some d' -> exists d, nth_error (b_insts p) k = Some d /\ upto_reach d d';
  su_multi : b_multi p' = b_multi p;
  su_ends : forall t u, ends (b_redirects p) t u <-> ends (b_redirects p') t u;
  su_keys : forall t, lookup t (b_redirects p) = None <-> lookup t (b_redirects p') = None
}.
Lemma upto_sym d d' : upto_reach d d' -> upto_reach d' d.
Proof. intros [-> |[b ->]]; [left; reflexivity|]. right. exists (d_reach d). destruct d. reflexivity. Qed.
Lemma su_fwd p p' k d : sameup p p' -> nth_error (b_insts p) k = Some d -> exists d', nth_error (b_insts p') k = Some d' /\ upto_reach d' d.
Proof.
  intros [L N _ _ _] H. destruct (nth_some (b_insts p') k) as [d' H']; [apply nth_lt in H; lia|]. exists d'. split; [exact H'|].
  destruct (N k d' H') as (d0 & H0 & U). assert (d0 = d) by congruence. subst. apply upto_sym, U.
Qed.
Lemma sameup_sym p p' : sameup p p' -> sameup p' p.
Proof.
  intros S. pose proof S as [L N M E K]. constructor; [congruence| |congruence| |].
  - intros k d H. apply (su_fwd _ _ _ _ S H).
  - intros t u. symmetry. apply E.
  - intros t. symmetry. apply K.
Qed.
Lemma upto_all d d' : upto_reach d d' -> is_dead d' = is_dead d /\ is_static_jump d' = is_static_jump d /\ d_flags d' = d_flags d /\
  d_target d' = d_target d /\ is_jumpdest d' = is_jumpdest d /\ unresolved d' = unresolved d /\ can_fall_through d' = can_fall_through d /\
  is_branching d' = is_branching d /\ d_op d' = d_op d.
Proof. intros [-> |[b ->]]; repeat split. Qed.
Section SameUp.
  Variables (p p' : bc).
  Hypothesis SU : sameup p p'.
  Lemma su_live k : live_at (b_insts p) k -> live_at (b_insts p') k.
  Proof. intros (d & H & D). destruct (su_fwd _ _ _ _ SU H) as (d' & H' & U). apply upto_all in U as (U & _). exists d'. split; [exact H'|congruence]. Qed.
  Lemma su_tg i t : tg p i t -> tg p' i t.
  Proof.
    intros (d & H & A & B & C). destruct (su_fwd _ _ _ _ SU H) as (d' & H' & U). apply upto_all in U as (_ & U1 & U2 & U3 & _). exists d'.
    rewrite <- U1, <- U2, (su_multi _ _ SU), <- U3. auto.
  Qed.
  Lemma su_dst i t : dst p i t -> dst p' i t.
  Proof. intros (u & A & B). exists u. split; [apply su_tg, A|apply (su_ends _ _ SU), B]. Qed.
  Lemma su_dyn : dynlive p -> dynlive p'.
  Proof. intros (i & d & H & A). destruct (su_fwd _ _ _ _ SU H) as (d' & H' & U). apply upto_all in U. exists i, d'. split; [exact H'|]. intuition congruence. Qed.
  Lemma su_opj k : opj p k -> opj p' k.
  Proof. intros (d & H & A). destruct (su_fwd _ _ _ _ SU H) as (d' & H' & U). apply upto_all in U. exists d'. split; [exact H'|]. intuition congruence. Qed.
  Lemma su_jt k : jt p k -> jt p' k.
  Proof.
    intros [A B]. split; [apply su_opj, A|]. destruct B as [B|(i & B & C)]; [left; apply su_dyn, B|]. right. exists i.
    split; [apply su_live, B|apply su_dst, C].
  Qed.
  Lemma su_follows k : follows p k -> follows p' k.
  Proof.
    intros (j & d & -> & H & D & C). destruct (su_fwd _ _ _ _ SU H) as (d' & H' & U). apply upto_all in U as (U1 & _ & U2 & _ & _ & _ & U3 & _).
    exists j, d'. split; [reflexivity|]. split; [exact H'|]. split; [congruence|]. rewrite <- U3, <- U2. destruct C as [C|[C1 C2]]; [auto|].
    right. split; [exact C1|apply su_tg, C2].
  Qed.
End SameUp.
Lemma su_hd p p' k : sameup p p' -> hd p k -> hd p' k.
Proof.
  intros SU [A B]. split; [eapply su_live; eauto|]. destruct B as [B|B]; [left; eapply su_jt; eauto|]. right. intros j d E H D.
  destruct (su_nth _ _ SU _ _ H) as (d0 & H0 & U). apply upto_all in U as (U1 & _ & _ & _ & _ & _ & _ & U2 & _). rewrite U2. apply (B j d0 E H0). congruence.
Qed.
Lemma su_linv p p' : sameup p p' -> linv p -> linv p'.
Proof.
  intros SU [A B C D E F G]. pose proof (sameup_sym _ _ SU) as SU'. constructor.
  - intros k Hk. destruct (A k) as [X|[X|X]]; [eapply su_live; eauto|auto|right; left; eapply su_jt; eauto|right; right; eapply su_follows; eauto].
  - intros i d H HD HC HL. destruct (su_nth _ _ SU _ _ H) as (d0 & H0 & U). apply upto_all in U as (U1 & _ & _ & _ & _ & _ & U2 & _).
    apply (su_live p p' SU). apply (B i d0 H0); [congruence|congruence|apply (su_keys _ _ SU), HL].
  - intros i t Hi Ht Hl. apply (su_hd p p' _ SU). apply (C i t); [eapply su_live; eauto|eapply su_tg; eauto|apply (su_keys _ _ SU), Hl].
  - intros k u Hk Hu. apply (su_hd p p' _ SU). apply (D k u); [intros X; apply Hk; apply (su_keys _ _ SU), X|apply (su_ends _ _ SU), Hu].
  - intros i t Hi Ht. destruct (E i t) as [X|[(d & H & X) Y]]; [eapply su_live; eauto|eapply su_tg; eauto|left; eapply su_opj; eauto|].
    right. split; [|exact Y]. destruct (su_fwd _ _ _ _ SU H) as (d' & H' & U). apply upto_all in U as (_ & _ & U & _). exists d'. split; [exact H'|congruence].
  - intros Hd k Hk. apply (su_live p p' SU). apply F; [eapply su_dyn; eauto|eapply su_opj; eauto].
  - intros i d H HD HM. destruct (su_nth _ _ SU _ _ H) as (d0 & H0 & U). apply upto_all in U as (U1 & U2 & U3 & _).
    destruct (G i d0 H0) as [X Y]; [congruence|congruence|]. split; congruence.
Qed.

(** ** Refreshing removes nothing. *)
Lemma set_reachable_inv r : forall ts l l' k d', set_reachable r ts l = Some l' -> nth_error l' k = Some d' -> d_reach d' = true ->
  (exists d, nth_error l k = Some d /\ d_reach d = true) \/ exists t, In t ts /\ root r t = Some k.
Proof.
  induction ts as [|t ts IH]; intros l l' k d' E H R; cbn [set_reachable] in E; [injection E as <-; left; eauto|].
  destruct (root r t) as [u|] eqn:Er; [|discriminate]. destruct (IH _ _ _ _ E H R) as [(d & Hd & X)|(t' & Ht & X)].
  - rewrite nth_upd_nth in Hd. destruct (Nat.eqb_spec k u) as [-> |N]; [right; exists t; split; [left; reflexivity|exact Er]|left; eauto].
  - right. exists t'. split; [right; exact Ht|exact X].
Qed.
Lemma jump_targets_inv multi : forall l i t, In t (jump_targets_from multi i l) -> exists k d, nth_error l k = Some d /\ is_dead d = false /\
  is_static_jump d = true /\ f_invalid (d_flags d) = false /\
  (if f_multi (d_flags d) then exists ts, multi (i + k)%nat = Some ts /\ In t ts else t = d_target d).
Proof.
  induction l as [|d l IH]; intros i t H; [destruct H|]. cbn [jump_targets_from] in H. apply in_app_or in H as [H|H].
  - exists 0%nat, d. rewrite Nat.add_0_r. destruct (is_static_jump d), (f_invalid (d_flags d)), (is_dead d); cbn in H; try contradiction.
    repeat split; auto. destruct (f_multi (d_flags d)).
    + destruct (multi i) as [ts|]; [eauto|contradiction].
    + destruct H as [H|[]]. auto.
  - destruct (IH _ _ H) as (k & d0 & A & B). exists (S k), d0. split; [exact A|]. replace (i + S k)%nat with (S i + k)%nat by lia. exact B.
Qed.
Definition exact_reach (p : bc) : Prop := (b_dyn p = true <-> dynlive p) /\
  forall u d, nth_error (b_insts p) u = Some d -> is_jumpdest d = true -> (d_reach d = true <-> exists i, live_at (b_insts p) i /\ dst p i u).
Lemma root_ends r t u : downward r -> root r t = Some u <-> ends r t u.
Proof.
  intros D. destruct (root_total r t D) as (v & -> & E & _). split; intros X; [congruence|]. f_equal. eapply ends_det; eauto.
Qed.
Lemma recompute_exact p p' : downward (b_redirects p) -> recompute_reachable (recompute_dyn p) = Some p' -> sameup p p' /\ exact_reach p'.
Proof.
  intros DW E. destruct (recompute_reachable_shape _ _ E) as (L & P & M & R & D & _). cbn in *.
  assert (SU : sameup p p') by (constructor; rewrite ?R; try tauto; auto; apply R).
  pose proof (sameup_sym _ _ SU) as SU'. split; [exact SU|]. split.
  - rewrite D. rewrite existsb_exists. split.
    + intros (d & Hin & U). apply In_nth_error in Hin as [i Hi]. apply (su_dyn _ _ SU). exists i, d. auto.
    + intros H. apply (su_dyn _ _ SU') in H as (i & d & Hi & U). exists d. split; [eapply nth_error_In; eauto|exact U].
  - intros u d Hu HJ. pose proof (recompute_fresh _ _ E) as FR. split.
    + intros HR. unfold recompute_reachable in E. cbn in E. destruct (set_reachable _ _ _) as [l|] eqn:ES; [|discriminate]. injection E as <-. cbn in *.
      destruct (set_reachable_inv _ _ _ _ _ _ ES Hu HR) as [(d0 & H0 & X)|(t & Ht & X)].
      * exfalso. rewrite nth_error_map in H0. destruct (nth_error (b_insts p) u) as [e|] eqn:He; [|discriminate]. cbn in H0. injection H0 as <-.
        destruct (is_jumpdest e) eqn:Ej; [discriminate|]. destruct (P _ _ Hu) as (e' & He' & U). apply upto_all in U. assert (e' = e) by congruence. subst. intuition congruence.
      * destruct (jump_targets_inv _ _ _ _ Ht) as (k & e & He & De & A & B & C). exists k.
        split; [apply (su_live _ _ SU); exists e; auto|]. apply (su_dst _ _ SU). exists t. split; [exists e; auto|apply root_ends; auto].
    + intros (i & (e & He & De) & t & (e' & He' & A & B & C) & Ed). assert (e' = e) by congruence. subst e'.
      eapply (fr_reach _ FR i e t u d He A B De C); [|exact Hu|exact HJ]. apply root_ends; [rewrite R; exact DW|exact Ed].
Qed.
Lemma set_dead_id d : is_dead d = true -> set_dead d = d.
Proof. destruct d as [? f]. destruct f as [? ? ? ? ? ? ? ? dd]. cbn. intros ->. reflexivity. Qed.
Lemma nth_ext_error {A} (l : list A) : forall l', length l = length l' -> (forall k x y, nth_error l k = Some x -> nth_error l' k = Some y -> x = y) -> l = l'.
Proof.
  induction l as [|x l IH]; intros [|y l'] L H; try discriminate; [reflexivity|]. f_equal; [apply (H 0%nat); reflexivity|].
  apply IH; [cbn in L; congruence|]. intros k. apply (H (S k)).
Qed.
Lemma mark_nothing p : linv p -> exact_reach p -> mark_once (b_dyn p) None 0 (b_insts p) = (b_insts p, false).
Proof.
  intros LI [X1 X2]. destruct (mark_once (b_dyn p) None 0 (b_insts p)) as [l' b] eqn:E.
  destruct (mark_once_spec _ _ _ _ _ _ E) as (L & P & J & F & T & _).
  assert (K : forall n k d, (k <= n)%nat -> nth_error (b_insts p) k = Some d -> is_dead d = false -> nth_error l' k = Some d).
  { induction n as [|n IH]; intros k d Hk H D.
    - assert (k = 0%nat) by lia. subst. rewrite F; auto.
    - destruct (lv_sup _ LI k) as [-> |[(O & Y)|(j & e & -> & He & De & Y)]]; [exists d; auto|rewrite F; auto| |].
      + apply J; [exact H|]. destruct O as (d0 & H0 & O). assert (d0 = d) by congruence. subst d0. unfold is_reachable_jumpdest. rewrite O. cbn.
        apply orb_true_iff. destruct Y as [Y|Y]; [left; apply X1, Y|right; apply (X2 k d H O), Y].
      + rewrite (T j e); [exact H|apply IH; [lia|exact He|exact De]|exact De|]. cbn. destruct Y as [Y|[Y1 (e' & He' & Y2 & Y3 & Y4)]]; [left; exact Y|right].
        assert (e' = e) by congruence. subst e'. rewrite Y1 in Y4. unfold static_target_after. rewrite Y2, <- Y4.
        replace (j <? S j)%nat with true by lia. cbn. apply Nat.eqb_refl. }
  assert (EQ : l' = b_insts p).
  { apply nth_ext_error; [exact L|]. intros k x y Hx Hy. destruct (is_dead y) eqn:D; [|rewrite (K k k y) in Hx by auto; congruence].
    destruct (P _ _ Hx) as (y' & Hy' & U). assert (y' = y) by congruence. subst y'. destruct U as [-> | ->]; [reflexivity|apply set_dead_id, D]. }
  subst l'. destruct b; [|reflexivity]. destruct (mark_once_jumps _ _ _ _ _ _ E) as [_ H]. specialize (H eq_refl). lia.
Qed.
Lemma linv_refresh p : linv p -> rinv p -> exists p', refresh_cfg p = Some p' /\ linv p' /\ rinv p' /\ exact_reach p' /\ flat (b_redirects p') /\
  rebuilt p' /\ sameup p p'.
Proof.
  intros LI RI. destruct (rinv_refresh p RI) as (p' & E & R' & _ & K & FL & EN & RB). exists p'. split; [exact E|].
  unfold refresh_cfg in E. destruct (recompute_reachable (recompute_dyn p)) as [p1|] eqn:E1; [|discriminate].
  destruct (recompute_exact p p1 (ri_down _ RI) E1) as [S1 X1]. pose proof (su_linv _ _ S1 LI) as L1.
  assert (E2 : mark_dead_code (length (b_insts p1)) p1 = Some (with_insts p1 (b_insts p1))).
  { destruct (length (b_insts p1)); cbn [mark_dead_code]; rewrite (mark_nothing p1 L1 X1); reflexivity. }
  rewrite E2 in E. destruct (recompute_reachable_shape _ _ E1) as (_ & _ & _ & R1 & _). cbn in R1.
  unfold compress_redirects in E. cbn [with_insts b_redirects] in E. destruct (compress _ _) as [r|] eqn:EC; [|discriminate]. injection E as <-. cbn in *.
  assert (S2 : sameup p (rebuild_cfg (with_redirects (with_insts p1 (b_insts p1)) r))).
  { destruct S1 as [A B C _ _]. constructor; cbn; auto. intros t. rewrite !lookup_none, K. tauto. }
  assert (SX : sameup p1 (rebuild_cfg (with_redirects (with_insts p1 (b_insts p1)) r))).
  { constructor; cbn; auto; [|intros t u; rewrite R1; apply EN|intros t; rewrite !lookup_none, R1, K; tauto]. intros k d H. exists d. split; [exact H|left; reflexivity]. }
  split; [eapply su_linv; eauto|]. split; [exact R'|]. split; [|split; [exact FL|split; [exact RB|exact S2]]].
  destruct X1 as [X1 X2]. split.
  - cbn [rebuild_cfg with_blocks with_redirects with_insts b_dyn]. rewrite X1. split; [apply su_dyn, SX|apply su_dyn, sameup_sym, SX].
  - intros u d Hu HJ. cbn in Hu. rewrite (X2 u d Hu HJ). split; intros (i & A & B); exists i; (split; [exact A|]); [eapply su_dst; eauto|eapply su_dst; [apply sameup_sym, SX|exact B]].
Qed.

(** ** The blocks at the start of a round. *)
Record blkok (p : bc) (bl : blk) : Prop := {
  bo_live : forall i, In i (blk_insts bl) -> live_at (b_insts p) i;
  bo_int : forall i d, (bk_start bl <= i)%nat -> (S i < bk_end bl)%nat -> nth_error (b_insts p) i = Some d -> is_branching d = false /\ ~ jt p (S i);
  bo_head : hd p (bk_start bl)
}.
Record elig (p : bc) (bl : blk) : Prop := {
  el_term : forall d, nth_error (b_insts p) (terminator bl) = Some d -> can_fall_through d = false /\ (is_jump d = true -> f_static (d_flags d) = true);
  el_dyn : dynlive p -> ~ opj p (bk_start bl)
}.
Lemma linv_dst p i u : linv p -> live_at (b_insts p) i -> dst p i u -> hd p u.
Proof.
  intros LI Hi (t & Ht & E). destruct (lookup t (b_redirects p)) as [v|] eqn:El.
  - apply (lv_redir _ LI t u); [congruence|exact E].
  - inversion E as [? X|? n ? X]; subst; [apply (lv_jump _ LI i u Hi Ht El)|congruence].
Qed.
Section Round.
  Variable p : bc.
  Hypotheses (LI : linv p) (RI : rinv p) (XR : exact_reach p) (FL : flat (b_redirects p)) (RB : rebuilt p).
  Lemma jt_rjd u d : nth_error (b_insts p) u = Some d -> (jt p u <-> is_reachable_jumpdest (b_dyn p) d = true).
  Proof.
    intros H. destruct XR as [X1 X2]. unfold is_reachable_jumpdest, jt, opj. split.
    - intros [(d0 & H0 & J) Y]. assert (d0 = d) by congruence. subst. rewrite J. cbn. apply orb_true_iff.
      destruct Y as [Y|Y]; [left; apply X1, Y|right; apply (X2 u d H J), Y].
    - intros Y. apply andb_true_iff in Y as [J Y]. split; [eauto|]. apply orb_true_iff in Y as [Y|Y]; [left; apply X1, Y|right; apply (X2 u d H J), Y].
  Qed.
  Lemma hd_leader u : hd p u -> is_leader (b_dyn p) (b_insts p) u = true.
  Proof.
    intros [(d & H & D) B]. unfold is_leader. rewrite H. apply orb_true_iff.
    destruct (lv_sup _ LI u) as [-> |[X|(j & e & -> & He & De & X)]]; [exists d; auto|left; reflexivity|right; apply (jt_rjd u d H), X|].
    destruct B as [B|B]; [right; apply (jt_rjd (S j) d H), B|]. left. cbn. rewrite He, De, (B j e eq_refl He De). reflexivity.
  Qed.
  Lemma leader_hd u : live_at (b_insts p) u -> is_leader (b_dyn p) (b_insts p) u = true -> hd p u.
  Proof.
    intros HL. pose proof HL as (d & H & D). unfold is_leader. rewrite H. intros L. split; [exact HL|]. apply orb_true_iff in L as [L|L]; [|left; apply (jt_rjd u d H), L].
    right. intros j e -> He De. cbn in L. rewrite He, De in L. cbn in L. unfold is_branching. unfold is_branching in L. destruct (is_jump e), (is_diverging e); auto.
  Qed.
  Lemma sup_ranges : let rs := ranges (b_dyn p) (b_insts p) in
    (forall r, In r rs -> chain (b_dyn p) (b_insts p) r /\ start_good (b_dyn p) (b_insts p) (fst r)) /\
    (forall j, live_at (b_insts p) j -> exists r, In r rs /\ in_range j r = true) /\
    (forall j, live_at (b_insts p) j -> is_leader (b_dyn p) (b_insts p) j = true -> exists r, In r rs /\ fst r = j).
  Proof.
    apply ranges_live. intros i d H D. destruct (lv_sup _ LI (S i)) as [X|[X|(j & e & Ej & He & De & _)]]; [exists d; auto|discriminate|left; apply (jt_rjd _ d H), X|].
    injection Ej as <-. right. exists e. auto.
  Qed.
  Lemma blk_range b bl : nth_error (b_blocks p) b = Some bl -> exists r, nth_error (ranges (b_dyn p) (b_insts p)) b = Some r /\
    bl = mkBlk (fst r) (snd r) (block_succs p (ranges (b_dyn p) (b_insts p)) r).
  Proof.
    intros H. rewrite RB, nth_error_map in H. destruct (nth_error (ranges _ _) b) as [r|]; [|discriminate]. exists r. split; [reflexivity|].
    unfold option_map in H. congruence.
  Qed.
  Lemma blkok_all b bl : nth_error (b_blocks p) b = Some bl -> blkok p bl.
  Proof.
    intros H. destruct (blk_range _ _ H) as (r & Hr & ->). destruct sup_ranges as [CH _]. destruct (CH r (nth_error_In _ _ Hr)) as [C SG].
    pose proof (wf_block _ _ _ (proj1 (rebuilt_wf p RB)) H) as W. cbn in W. constructor; cbn.
    - intros i Hi. apply in_seq in Hi. destruct (C i) as (d & Hd & D & _); [lia|]. exists d. auto.
    - intros i d Hi Hs Hd. destruct (C i) as (d0 & H0 & D0 & N); [lia|]. destruct (N Hs) as [N1 N2]. assert (d0 = d) by congruence. subst d0.
      split; [exact N1|]. intros J. destruct (C (S i)) as (e & He & _); [lia|]. unfold is_leader in N2. rewrite He in N2. apply orb_false_iff in N2 as [_ N2].
      apply (jt_rjd _ e He) in J. congruence.
    - apply leader_hd; [|exact SG]. destruct (C (fst r)) as (d & Hd & D & _); [lia|]. exists d. auto.
  Qed.
  Lemma elig_all bl k : block_key p bl = Some k -> elig p bl.
  Proof.
    intros K. destruct (block_key_spec _ _ _ K) as (te & fi & Ht & Hf & A & B & _ & C & _). constructor.
    - intros d Hd. assert (d = te) by congruence. subst. auto.
    - intros D (d & Hd & J). assert (d = fi) by congruence. subst. rewrite B in J; [discriminate|]. apply (proj1 XR), D.
  Qed.
  (** The successors of an eligible block are the blocks its jump leads to. *)
  Lemma find_start u : hd p u -> exists b r, nth_error (ranges (b_dyn p) (b_insts p)) b = Some r /\ fst r = u /\
    find_range (ranges (b_dyn p) (b_insts p)) 0 u = Some b.
  Proof.
    intros H. destruct sup_ranges as (_ & _ & L). destruct (L u (proj1 H) (hd_leader u H)) as (r & Hr & <-).
    apply In_nth_error in Hr as [b Hb]. exists b, r. split; [exact Hb|]. split; [reflexivity|].
    pose proof (proj1 (ranges_basic (b_dyn p) (b_insts p))) as W. apply (find_range_nth _ _ _ b 0 r (fst r) W Hb).
    destruct (wf_ranges_nth _ _ _ _ _ W Hb). unfold in_range. lia.
  Qed.
  Lemma resolve_dst t u : ends (b_redirects p) t u -> resolve_block (ranges (b_dyn p) (b_insts p)) (b_redirects p) t = find_range (ranges (b_dyn p) (b_insts p)) 0 u.
  Proof. intros E. unfold resolve_block. rewrite (ends_det _ _ _ (flat_root _ t FL) _ E). reflexivity. Qed.
  Lemma succs_dst b bl k : nth_error (b_blocks p) b = Some bl -> block_key p bl = Some k ->
    forall c, In c (bk_succs bl) <-> exists u, dst p (terminator bl) u /\ find_range (ranges (b_dyn p) (b_insts p)) 0 u = Some c.
  Proof.
    intros H K c. pose proof (blkok_all _ _ H) as BO. destruct (blk_range _ _ H) as (r & Hr & E).
    destruct (block_key_spec _ _ _ K) as (te & fi & Ht & Hf & NF & _ & _ & ST & _).
    assert (TL : live_at (b_insts p) (terminator bl)) by (apply (bo_live _ _ BO); apply (term_in p b bl (proj1 (rebuilt_wf p RB)) H)).
    assert (DD : is_dead te = false) by (destruct TL as (d & Hd & D); congruence).
    rewrite E at 1. cbn [bk_succs]. unfold block_succs. replace (snd r - 1)%nat with (terminator bl) by (rewrite E; reflexivity). rewrite Ht, NF.
    destruct (f_multi (d_flags te)) eqn:Fm.
    - destruct (lv_multi _ LI _ te Ht DD Fm) as [Js Ni]. destruct (b_multi p (terminator bl)) as [ts|] eqn:Em; [|exfalso; exact (ri_multi _ RI _ te Ht DD Fm Em)]. cbn [andb].
      split.
      + intros Hc. apply fold_add_inv in Hc as [[]|(t & Hin & Hc)]. destruct (root_total (b_redirects p) t (ri_down _ RI)) as (u & _ & Eu & _).
        exists u. split; [exists t; split; [exists te; rewrite Fm; repeat split; eauto|exact Eu]|]. rewrite <- (resolve_dst t u Eu). exact Hc.
      + intros (u & (t & (te' & Ht' & _ & _ & X) & Eu) & Hc). assert (te' = te) by congruence. subst te'. rewrite Fm in X. destruct X as (ts' & Ets & Hin).
        assert (ts' = ts) by congruence. subst ts'. eapply fold_add_new; [exact Hin|]. rewrite (resolve_dst t u Eu). exact Hc.
    - cbn [andb]. destruct (is_static_jump te && negb (f_invalid (d_flags te))) eqn:Es.
      + apply andb_true_iff in Es as [Js Ni]. apply negb_true_iff in Ni. split.
        * intros Hc. apply add_succ_inv in Hc as [[]|Hc]. destruct (root_total (b_redirects p) (d_target te) (ri_down _ RI)) as (u & _ & Eu & _).
          exists u. split; [exists (d_target te); split; [exists te; rewrite Fm; auto|exact Eu]|]. rewrite <- (resolve_dst _ u Eu). exact Hc.
        * intros (u & (t & (te' & Ht' & _ & _ & X) & Eu) & Hc). assert (te' = te) by congruence. subst te'. rewrite Fm in X. subst t.
          rewrite (resolve_dst _ u Eu), Hc. apply add_succ_new.
      + split; [intros []|]. intros (u & (t & (te' & Ht' & Js & Ni & X) & Eu) & Hc). assert (te' = te) by congruence. subst te'. rewrite Js, Ni in Es. discriminate.
  Qed.
  Lemma same_dst a b bla blb k : nth_error (b_blocks p) a = Some bla -> nth_error (b_blocks p) b = Some blb -> block_key p bla = Some k -> block_key p blb = Some k ->
    forall u, dst p (terminator bla) u -> dst p (terminator blb) u.
  Proof.
    intros Ha Hb Ka Kb u Hu.
    assert (SE : bk_succs bla = bk_succs blb).
    { destruct (block_key_spec _ _ _ Ka) as (? & ? & _ & _ & _ & _ & _ & _ & _ & _ & S1 & _). destruct (block_key_spec _ _ _ Kb) as (? & ? & _ & _ & _ & _ & _ & _ & _ & _ & S2 & _). congruence. }
    assert (TL : forall x bl, nth_error (b_blocks p) x = Some bl -> live_at (b_insts p) (terminator bl)).
    { intros x bl H. apply (bo_live _ _ (blkok_all _ _ H)). apply (term_in p x bl (proj1 (rebuilt_wf p RB)) H). }
    pose proof (linv_dst _ _ _ LI (TL _ _ Ha) Hu) as HU. destruct (find_start u HU) as (c & r & Hr & <- & Fu).
    assert (Hc : In c (bk_succs blb)) by (rewrite <- SE; apply (succs_dst _ _ _ Ha Ka); exists (fst r); auto).
    apply (succs_dst _ _ _ Hb Kb) in Hc as (w & Hw & Fw). pose proof (linv_dst _ _ _ LI (TL _ _ Hb) Hw) as HW.
    destruct (find_start w HW) as (c' & r' & Hr' & <- & Fw'). assert (c' = c) by congruence. subst c'. assert (r' = r) by congruence. subst r'. exact Hw.
  Qed.
End Round.

(** ** One merge. *)
Lemma kill_nth idx : forall l k, nth_error (kill l idx) k = if existsb (Nat.eqb k) idx then option_map set_dead (nth_error l k) else nth_error l k.
Proof.
  unfold kill. induction idx as [|i idx IH]; intros l k; cbn [fold_left existsb]; [reflexivity|]. rewrite IH, nth_upd_nth.
  destruct (Nat.eqb_spec k i) as [-> |N]; cbn [orb]; [|reflexivity]. destruct (existsb _ idx), (nth_error l i) as [d|]; reflexivity.
Qed.
Lemma retarget_nth ps a b : forall l k d', nth_error (retarget ps a b l) k = Some d' -> exists d, nth_error l k = Some d /\
  (d' = d \/ (jumps_to a d = true /\ d' = set_target d b)).
Proof.
  unfold retarget. induction ps as [|i ps IH]; intros l k d' H; cbn [fold_left] in H; [eauto|].
  destruct (IH _ _ _ H) as (d & Hd & X). destruct (has (jumps_to a) l i) eqn:Eh; [|eauto].
  rewrite nth_upd_nth in Hd. destruct (Nat.eqb_spec k i) as [-> |N]; [|eauto].
  unfold has in Eh. destruct (nth_error l i) as [e|]; [|discriminate]. cbn in Hd. injection Hd as <-. exists e. split; [reflexivity|]. right. split; [exact Eh|].
  destruct X as [-> |[_ ->]]; reflexivity.
Qed.
Lemma retarget_len ps a b l : length (retarget ps a b l) = length l.
Proof. apply (retarget_keeps ps a b l). Qed.
Lemma ends_merge r r' a b : (forall k, lookup k r' = if (k =? a)%nat then Some b else lookup k r) -> lookup a r = None -> lookup b r = None -> a <> b ->
  (forall t u, ends r t u -> ends r' t (if (u =? a)%nat then b else u)) /\
  (forall t u', ends r' t u' -> exists u, ends r t u /\ u' = if (u =? a)%nat then b else u).
Proof.
  intros LK La Lb N. assert (EB : ends r' b b) by (constructor; rewrite LK; destruct (Nat.eqb_spec b a); congruence). split.
  - induction 1 as [t H|t n u H E IH].
    + destruct (Nat.eqb_spec t a) as [-> |Na]; [|constructor; rewrite LK; destruct (Nat.eqb_spec t a); congruence].
      eapply ends_next; [rewrite LK, Nat.eqb_refl; reflexivity|exact EB].
    + eapply ends_next; [|exact IH]. rewrite LK. destruct (Nat.eqb_spec t a); congruence.
  - induction 1 as [t H|t n u' H E IH]; rewrite LK in H.
    + exists t. destruct (Nat.eqb_spec t a); [discriminate|]. split; [constructor; exact H|reflexivity].
    + destruct (Nat.eqb_spec t a) as [-> |Na].
      * injection H as <-. exists a. split; [constructor; exact La|]. rewrite Nat.eqb_refl. eapply ends_det; eauto.
      * destruct IH as (u & Eu & ->). exists u. split; [eapply ends_next; eauto|reflexivity].
Qed.
Definition kin (d d' : idata) : Prop := d_op d' = d_op d /\ f_static (d_flags d') = f_static (d_flags d) /\ f_invalid (d_flags d') = f_invalid (d_flags d) /\
  f_multi (d_flags d') = f_multi (d_flags d) /\ f_constcond (d_flags d') = f_constcond (d_flags d) /\ f_disabled (d_flags d') = f_disabled (d_flags d) /\
  f_unknown (d_flags d') = f_unknown (d_flags d).
Lemma kin_all d d' : kin d d' -> is_static_jump d' = is_static_jump d /\ is_jumpdest d' = is_jumpdest d /\ can_fall_through d' = can_fall_through d /\
  is_branching d' = is_branching d /\ is_jump d' = is_jump d.
Proof.
  intros (A & B & C & D & E & F & G). unfold is_static_jump, is_jumpdest, can_fall_through, is_branching, is_diverging, has_const_jumpi_condition, is_jump.
  rewrite A, B, C, E, F, G. auto.
Qed.
Record mstep (p : bc) (cb db : blk) (p' : bc) : Prop := {
  ms_len : length (b_insts p') = length (b_insts p);
  ms_nth : forall k d', nth_error (b_insts p') k = Some d' -> exists d, nth_error (b_insts p) k = Some d /\ kin d d' /\
    (is_dead d' = true <-> is_dead d = true \/ In k (blk_insts db)) /\
    (d_target d' = d_target d \/ (d_target d = bk_start db /\ d_target d' = bk_start cb));
  ms_redir : forall k, lookup k (b_redirects p') = if (k =? bk_start db)%nat then Some (bk_start cb) else lookup k (b_redirects p);
  ms_other : forall i, i <> terminator cb -> i <> terminator db -> b_multi p' i = b_multi p i;
  ms_canon : b_multi p' (terminator cb) = b_multi p (terminator cb) \/
    exists td cts ts, nth_error (b_insts p) (terminator db) = Some td /\ f_multi (d_flags td) = true /\ b_multi p (terminator db) = Some ts /\
      b_multi p (terminator cb) = Some cts /\ b_multi p' (terminator cb) = Some (add_targets cts ts)
}.
Lemma merge_dup_step cb p d db p' : nth_error (b_blocks p) d = Some db -> terminator cb <> terminator db -> merge_dup cb p d = Some p' -> mstep p cb db p'.
Proof.
  intros Hd NE. unfold merge_dup. rewrite Hd. set (l1 := kill (b_insts p) (blk_insts db)).
  set (l2 := if has is_jumpdest l1 (bk_start db) && has d_reach l1 (bk_start db) && has is_jumpdest l1 (bk_start cb) then _ else l1).
  destruct (merge_multi _ _ _ _) as [m|] eqn:EM; [|discriminate]. intros E. injection E as <-.
  assert (L2 : length l2 = length (b_insts p)).
  { transitivity (length l1); [subst l2; destruct (_ && _ && _); [apply upd_nth_length|reflexivity]|apply (kill_shrinks (blk_insts db) (b_insts p))]. }
  assert (N2 : forall k d2, nth_error l2 k = Some d2 -> exists d0, nth_error (b_insts p) k = Some d0 /\ kin d0 d2 /\
    (is_dead d2 = true <-> is_dead d0 = true \/ In k (blk_insts db)) /\ d_target d2 = d_target d0).
  { assert (N1 : forall k d2, nth_error l1 k = Some d2 -> exists d0, nth_error (b_insts p) k = Some d0 /\ kin d0 d2 /\
      (is_dead d2 = true <-> is_dead d0 = true \/ In k (blk_insts db)) /\ d_target d2 = d_target d0).
    { intros k d2 H. subst l1. rewrite kill_nth in H. destruct (existsb (Nat.eqb k) (blk_insts db)) eqn:Ex.
      - destruct (nth_error (b_insts p) k) as [d0|]; [|discriminate]. cbn in H. injection H as <-. exists d0. split; [reflexivity|].
        apply existsb_exists in Ex as (x & Hx & Ex). apply Nat.eqb_eq in Ex. subst x. split; [repeat split|]. split; [|reflexivity]. cbn. tauto.
      - exists d2. split; [exact H|]. split; [repeat split|]. split; [|reflexivity]. split; [auto|]. intros [X|X]; [exact X|].
        exfalso. assert (existsb (Nat.eqb k) (blk_insts db) = true); [|congruence]. apply existsb_exists. exists k. split; [exact X|apply Nat.eqb_refl]. }
    intros k d2 H. subst l2. destruct (_ && _ && _); [|apply N1; exact H]. rewrite nth_upd_nth in H. destruct (k =? bk_start cb)%nat; [|apply N1; exact H].
    destruct (nth_error l1 k) as [d1|] eqn:E1; [|discriminate]. cbn in H. injection H as <-. destruct (N1 _ _ E1) as (d0 & A & B & C). exists d0. split; [exact A|].
    split; [exact B|exact C]. }
  constructor; cbn [b_insts b_multi b_redirects].
  - rewrite retarget_len. exact L2.
  - intros k d' H. apply retarget_nth in H as (d2 & H2 & X). destruct (N2 _ _ H2) as (d0 & A & B & C & D). exists d0. split; [exact A|].
    destruct X as [-> |[J ->]]; [split; [exact B|]; split; [exact C|]; left; exact D|]. split; [exact B|]. split; [exact C|]. right. split; [|reflexivity].
    unfold jumps_to in J. rewrite <- D. lia.
  - intros k. apply insert_key_lookup.
  - unfold merge_multi in EM. intros i N1 N3. destruct (has _ l2 (terminator db)); [|congruence]. destruct (b_multi p (terminator db)) as [ts|]; [|congruence].
    rewrite upd_other in EM by exact NE. destruct (b_multi p (terminator cb)) as [cts|]; [|discriminate]. injection EM as <-. rewrite !upd_other by assumption. reflexivity.
  - unfold merge_multi in EM. destruct (has _ l2 (terminator db)) eqn:EH; [|left; congruence]. destruct (b_multi p (terminator db)) as [ts|] eqn:ET; [|left; congruence].
    rewrite upd_other in EM by exact NE. destruct (b_multi p (terminator cb)) as [cts|] eqn:EC; [|discriminate]. injection EM as <-. right.
    unfold has in EH. destruct (nth_error l2 (terminator db)) as [d2|] eqn:E2; [|discriminate]. destruct (N2 _ _ E2) as (td & A & (_ & _ & _ & B & _) & _).
    exists td, cts, ts. rewrite upd_same. repeat split; auto. congruence.
Qed.
Lemma add_targets_in new : forall old t, In t (add_targets old new) <-> In t old \/ In t new.
Proof.
  unfold add_targets. induction new as [|x new IH]; intros old t; cbn [fold_left]; [cbn; tauto|]. rewrite IH. destruct (existsb (Nat.eqb x) old) eqn:E; cbn.
  - apply existsb_exists in E as (y & Hy & E). apply Nat.eqb_eq in E. subst y. split; [tauto|]. intros [H|[->|H]]; auto.
  - rewrite in_app_iff. cbn. tauto.
Qed.

Section Merge.
  Variables (p p' : bc) (c d : nat) (cb db : blk).
  Hypotheses (LI : linv p) (RI : rinv p) (W : wf_blocks p).
  Hypotheses (Hc : nth_error (b_blocks p) c = Some cb) (Hd : nth_error (b_blocks p) d = Some db) (LT : (c < d)%nat).
  Hypotheses (OC : blkok p cb) (OD : blkok p db) (ED : elig p db).
  Hypothesis EQ : forall u, dst p (terminator db) u -> dst p (terminator cb) u.
  Hypothesis HO : forall x y, nth_error (b_insts p) (bk_start cb) = Some x -> nth_error (b_insts p) (bk_start db) = Some y -> d_op y = d_op x.
  Hypothesis HM : forall x y, nth_error (b_insts p) (terminator cb) = Some x -> nth_error (b_insts p) (terminator db) = Some y -> f_multi (d_flags y) = f_multi (d_flags x).
  Hypothesis MS : mstep p cb db p'.
  Notation sC := (bk_start cb). Notation sD := (bk_start db). Notation tC := (terminator cb). Notation tD := (terminator db).
  Notation phi u := (if Nat.eqb u sD then sC else u).

  Lemma m_ord : (sC <= tC)%nat /\ (tC < sD)%nat /\ (sD <= tD)%nat /\ (tD < length (b_insts p))%nat.
  Proof. pose proof (wf_order _ _ _ _ _ W Hc Hd LT). pose proof (wf_block _ _ _ W Hc). pose proof (wf_block _ _ _ W Hd). unfold terminator. lia. Qed.
  Lemma m_inD i : In i (blk_insts db) <-> (sD <= i <= tD)%nat.
  Proof. rewrite in_blk. pose proof (wf_block _ _ _ W Hd). unfold terminator. lia. Qed.
  Lemma m_outC : ~ In tC (blk_insts db) /\ ~ In sC (blk_insts db).
  Proof. rewrite !m_inD. pose proof m_ord. lia. Qed.
  Lemma m_sD : live_at (b_insts p) sD.
  Proof. apply (bo_head _ _ OD). Qed.
  Lemma m_tD : live_at (b_insts p) tD.
  Proof. apply (bo_live _ _ OD). apply (term_in _ _ _ W Hd). Qed.
  Lemma m_tC : live_at (b_insts p) tC.
  Proof. apply (bo_live _ _ OC). apply (term_in _ _ _ W Hc). Qed.
  Lemma m_nokey k : live_at (b_insts p) k -> lookup k (b_redirects p) = None.
  Proof. intros HL. destruct (lookup k (b_redirects p)) as [v|] eqn:E; [|reflexivity]. exfalso. apply (ri_dead _ RI k v (lookup_in _ _ _ E) HL). Qed.
  Lemma m_ends : (forall t u, ends (b_redirects p) t u -> ends (b_redirects p') t (phi u)) /\
    (forall t u', ends (b_redirects p') t u' -> exists u, ends (b_redirects p) t u /\ u' = phi u).
  Proof.
    apply ends_merge; [apply (ms_redir _ _ _ _ MS)|apply m_nokey, m_sD|apply m_nokey; apply (bo_head _ _ OC)|]. pose proof m_ord. lia.
  Qed.
  Lemma m_fwd k x : nth_error (b_insts p) k = Some x -> exists x', nth_error (b_insts p') k = Some x' /\ kin x x' /\
    (is_dead x' = true <-> is_dead x = true \/ In k (blk_insts db)) /\ (d_target x' = d_target x \/ (d_target x = sD /\ d_target x' = sC)).
  Proof.
    intros H. destruct (nth_some (b_insts p') k) as [x' H']; [rewrite (ms_len _ _ _ _ MS); apply nth_lt in H; exact H|].
    exists x'. split; [exact H'|]. destruct (ms_nth _ _ _ _ MS _ _ H') as (x0 & H0 & X). assert (x0 = x) by congruence. subst x0. exact X.
  Qed.
  Lemma m_live k : live_at (b_insts p') k <-> live_at (b_insts p) k /\ ~ In k (blk_insts db).
  Proof.
    split.
    - intros (x' & H' & D'). destruct (ms_nth _ _ _ _ MS _ _ H') as (x & H & _ & D & _). split.
      + exists x. split; [exact H|]. destruct (is_dead x); [|reflexivity]. rewrite (proj2 D) in D'; auto.
      + intros X. rewrite (proj2 D) in D'; [discriminate|auto].
    - intros [(x & H & D) N]. destruct (m_fwd _ _ H) as (x' & H' & _ & X & _). exists x'. split; [exact H'|]. destruct (is_dead x'); [|reflexivity].
      destruct (proj1 X eq_refl); [congruence|contradiction].
  Qed.
  Lemma m_opj k : opj p' k <-> opj p k.
  Proof.
    split.
    - intros (x' & H' & J). destruct (ms_nth _ _ _ _ MS _ _ H') as (x & H & K & _). apply kin_all in K as (_ & K & _). exists x. split; [exact H|congruence].
    - intros (x & H & J). destruct (m_fwd _ _ H) as (x' & H' & K & _). apply kin_all in K as (_ & K & _). exists x'. split; [exact H'|congruence].
  Qed.
  Lemma m_head : opj p sD -> opj p sC.
  Proof.
    intros (y & Hy & J). destruct (bo_head _ _ OC) as [(x & Hx & _) _]. exists x. split; [exact Hx|]. unfold is_jumpdest in *. rewrite <- (HO x y Hx Hy). exact J.
  Qed.
  Lemma m_multi_fwd i ts : ~ In i (blk_insts db) -> b_multi p i = Some ts -> exists ts', b_multi p' i = Some ts' /\ incl ts ts'.
  Proof.
    intros N E. assert (Nt : i <> tD) by (intros ->; apply N, (term_in _ _ _ W Hd)).
    destruct (Nat.eq_dec i tC) as [-> |N1]; [|exists ts; rewrite (ms_other _ _ _ _ MS) by assumption; split; [exact E|apply incl_refl]].
    destruct (ms_canon _ _ _ _ MS) as [X|(td & cts & ts0 & _ & _ & _ & X2 & X3)]; [exists ts; split; [congruence|apply incl_refl]|].
    rewrite X3. eexists. split; [reflexivity|]. intros x Hx. apply add_targets_in. left. congruence.
  Qed.
  Lemma m_tg_fwd i t : ~ In i (blk_insts db) -> tg p i t -> exists t', tg p' i t' /\ (t' = t \/ (t = sD /\ t' = sC)).
  Proof.
    intros N (x & H & A & B & C). destruct (m_fwd _ _ H) as (x' & H' & K & _ & T). pose proof (kin_all _ _ K) as (K1 & _). destruct K as (_ & _ & Ki & Km & _).
    destruct (f_multi (d_flags x)) eqn:Fm.
    - destruct C as (ts & E & Hin). destruct (m_multi_fwd i ts N E) as (ts' & E' & I). exists t. split; [|auto]. exists x'. split; [exact H'|].
      split; [congruence|]. split; [congruence|]. rewrite Km. exists ts'. auto.
    - exists (d_target x'). split; [|destruct T as [T|[T1 T2]]; [left; congruence|right; split; congruence]].
      exists x'. split; [exact H'|]. split; [congruence|]. split; [congruence|]. rewrite Km. reflexivity.
  Qed.
  Lemma m_tg_bwd i t' : ~ In i (blk_insts db) -> tg p' i t' -> exists t, (tg p i t \/ (i = tC /\ tg p tD t /\ opj p t)) /\ (t' = t \/ (t = sD /\ t' = sC)).
  Proof.
    intros N (x' & H' & A & B & C). destruct (ms_nth _ _ _ _ MS _ _ H') as (x & H & K & _ & T). pose proof (kin_all _ _ K) as (K1 & _). destruct K as (_ & _ & Ki & Km & _).
    rewrite Km in C. destruct (f_multi (d_flags x)) eqn:Fm.
    - destruct C as (ts' & E' & Hin). exists t'. split; [|auto].
      assert (OLD : forall ts, b_multi p i = Some ts -> In t' ts -> tg p i t').
      { intros ts E I. exists x. split; [exact H|]. split; [congruence|]. split; [congruence|]. rewrite Fm. eauto. }
      assert (Nt : i <> tD) by (intros ->; apply N, (term_in _ _ _ W Hd)).
      destruct (Nat.eq_dec i tC) as [-> |N1]; [|left; apply (OLD ts'); [rewrite <- (ms_other _ _ _ _ MS) by assumption; exact E'|exact Hin]].
      destruct (ms_canon _ _ _ _ MS) as [X|(td & cts & ts & Htd & Ftd & X1 & X2 & X3)]; [left; apply (OLD ts'); [congruence|exact Hin]|].
      assert (ts' = add_targets cts ts) by congruence. subst ts'. apply add_targets_in in Hin as [Hin|Hin]; [left; eapply OLD; eauto|]. right. split; [reflexivity|].
      pose proof m_tD as (td' & Htd' & Dtd). assert (td' = td) by congruence. subst td'. destruct (lv_multi _ LI _ _ Htd Dtd Ftd) as [L1 L2].
      assert (TG : tg p tD t') by (exists td; rewrite Ftd; repeat split; eauto). split; [exact TG|].
      destruct (lv_near _ LI _ _ m_tD TG) as [O|[(e & He & Fe) _]]; [exact O|congruence].
    - exists (d_target x). split; [left; exists x; rewrite Fm; repeat split; congruence|]. subst t'. destruct T as [T|[T1 T2]]; [left; congruence|right; split; congruence].
  Qed.
  Lemma m_endsD : ends (b_redirects p) sD sD /\ ends (b_redirects p) sC sC.
  Proof. split; constructor; apply m_nokey; [apply m_sD|apply (bo_head _ _ OC)]. Qed.
  Lemma m_phiC : phi sC = sC.
  Proof. pose proof m_ord. destruct (Nat.eqb_spec sC sD); lia. Qed.
  Lemma m_dst i u' : ~ In i (blk_insts db) -> (dst p' i u' <-> exists u, dst p i u /\ u' = phi u).
  Proof.
    intros N. destruct m_ends as [E1 E2]. destruct m_endsD as [ED1 ED2]. split.
    - intros (t' & Ht & E). destruct (m_tg_bwd i t' N Ht) as (t & Ht' & X). destruct (E2 _ _ E) as (u & Eu & ->).
      assert (DI : forall w, ends (b_redirects p) t w -> dst p i w).
      { intros w Ew. destruct Ht' as [Ht'|(-> & Ht' & _)]; [exists t; auto|]. apply EQ. exists t. auto. }
      destruct X as [-> |[-> ->]]; [exists u; auto|]. exists sD. split; [apply DI; exact ED1|]. rewrite Nat.eqb_refl.
      rewrite <- (ends_det _ _ _ ED2 _ Eu). exact m_phiC.
    - intros (u & (t & Ht & E) & ->). destruct (m_tg_fwd i t N Ht) as (t' & Ht' & X). exists t'. split; [exact Ht'|].
      destruct X as [-> |[-> ->]]; [apply E1, E|]. rewrite <- (ends_det _ _ _ ED1 _ E), Nat.eqb_refl. rewrite <- m_phiC at 2. apply E1, ED2.
  Qed.
  Lemma m_jumpD i x : In i (blk_insts db) -> nth_error (b_insts p) i = Some x -> is_branching x = true -> i = tD.
  Proof.
    intros Hi H B. destruct (Nat.eq_dec i tD) as [|N]; [assumption|]. exfalso. apply m_inD in Hi.
    destruct (bo_int _ _ OD i x) as [X _]; [lia|unfold terminator in *; lia|exact H|congruence].
  Qed.
  Lemma m_dyn : dynlive p' <-> dynlive p.
  Proof.
    split.
    - intros (i & x' & H' & U). unfold unresolved in U. destruct (ms_nth _ _ _ _ MS _ _ H') as (x & H & K & D & _). exists i, x. split; [exact H|].
      pose proof (kin_all _ _ K) as (_ & _ & _ & _ & K1). destruct K as (_ & K2 & _). unfold unresolved. rewrite <- K1, <- K2. destruct (is_dead x).
      + rewrite (proj2 D) in U by auto. exact U.
      + destruct (is_jump x'), (f_static (d_flags x')); auto.
    - intros (i & x & H & U). unfold unresolved in U. destruct (m_fwd _ _ H) as (x' & H' & K & D & _). exists i, x'. split; [exact H'|].
      pose proof (kin_all _ _ K) as (_ & _ & _ & _ & K1). destruct K as (_ & K2 & _). unfold unresolved. rewrite K1, K2. destruct (is_dead x') eqn:E; [|destruct (is_jump x), (f_static (d_flags x)); auto].
      destruct (proj1 D eq_refl) as [X|X]; [rewrite X in U; exact U|]. exfalso.
      assert (i = tD) by (eapply m_jumpD; eauto; unfold is_branching; destruct (is_jump x); [reflexivity|discriminate]). subst i.
      destruct (el_term _ _ ED x H) as [_ Y]. destruct (is_jump x); [|discriminate]. rewrite Y in U by reflexivity. discriminate.
  Qed.
  Lemma m_jt u : jt p u -> ~ In u (blk_insts db) -> jt p' u.
  Proof.
    intros [O Y] N. split; [apply m_opj, O|]. destruct Y as [Y|(i & Hi & Y)]; [left; apply m_dyn, Y|right].
    assert (E : phi u = u) by (destruct (Nat.eqb_spec u sD) as [-> |]; [exfalso; apply N; apply (term_in _ _ _ W Hd)|reflexivity]).
    destruct (in_dec Nat.eq_dec i (blk_insts db)) as [I|I].
    - assert (i = tD).
      { destruct Y as (t & (x & Hx & A & _) & _). eapply m_jumpD; eauto. unfold is_branching. unfold is_static_jump in A. destruct (is_jump x); [reflexivity|discriminate]. }
      subst i. exists tC. split; [apply m_live; split; [exact m_tC|apply m_outC]|]. apply m_dst; [apply m_outC|]. exists u. split; [apply EQ, Y|auto].
    - exists i. split; [apply m_live; auto|]. apply m_dst; [exact I|]. exists u. auto.
  Qed.
  Lemma m_jt_bwd u : jt p' u -> jt p u \/ u = sC.
  Proof.
    intros [O Y]. destruct Y as [Y|(i & Hi & Y)]; [left; split; [apply m_opj, O|left; apply m_dyn, Y]|].
    apply m_live in Hi as [Hi N]. apply (m_dst i u N) in Y as (w & Y & E). destruct (Nat.eqb_spec w sD) as [-> |]; [right; exact E|]. subst w.
    left. split; [apply m_opj, O|]. right. exists i. auto.
  Qed.
  Lemma m_hd u : hd p u -> ~ In u (blk_insts db) -> hd p' u.
  Proof.
    intros [A B] N. split; [apply m_live; auto|]. destruct B as [B|B]; [left; apply m_jt; assumption|right].
    intros j x' E H' D'. destruct (ms_nth _ _ _ _ MS _ _ H') as (x & H & K & D & _). apply kin_all in K as (_ & _ & _ & K & _). rewrite K.
    apply (B j x E H). destruct (is_dead x); [|reflexivity]. rewrite (proj2 D) in D'; auto.
  Qed.
  Lemma m_hd_in u : hd p u -> In u (blk_insts db) -> u = sD.
  Proof.
    intros [A B] I. destruct (Nat.eq_dec u sD) as [|N]; [assumption|]. exfalso. apply m_inD in I. destruct u as [|j]; [lia|].
    assert (Ij : In j (blk_insts db)) by (apply m_inD; lia). destruct (bo_live _ _ OD j Ij) as (x & Hx & Dx).
    destruct (bo_int _ _ OD j x) as [X Y]; [lia|unfold terminator in *; lia|exact Hx|]. destruct B as [B|B]; [exact (Y B)|]. rewrite (B j x eq_refl Hx Dx) in X. discriminate.
  Qed.
  Lemma m_hd_phi u : hd p u -> hd p' (phi u).
  Proof.
    intros H. destruct (Nat.eqb_spec u sD) as [-> |N]; [apply m_hd; [apply (bo_head _ _ OC)|apply m_outC]|].
    apply m_hd; [exact H|]. intros I. apply N, m_hd_in; assumption.
  Qed.
  Lemma ends_down r t u : downward r -> ends r t u -> (u <= t)%nat.
  Proof. intros DW. induction 1 as [|t n u H E IH]; [lia|]. pose proof (DW _ _ (lookup_in _ _ _ H)). lia. Qed.
  Lemma ends_opj t u : ends (b_redirects p) t u -> opj p t -> live_at (b_insts p) u -> opj p u.
  Proof.
    intros E (x & Hx & J) (y & Hy & _). exists y. split; [exact Hy|]. unfold is_jumpdest in *. rewrite <- (ends_head p t u (ri_head _ RI) (ri_down _ RI) E x y Hx Hy). exact J.
  Qed.
  Lemma merge_linv : linv p'.
  Proof.
    pose proof m_ord as ORD. constructor.
    - intros k Hk. apply m_live in Hk as [Hk N]. destruct (lv_sup _ LI k Hk) as [X|[X|(j & x & -> & Hx & Dx & X)]]; [auto|right; left; apply m_jt; assumption|].
      destruct (in_dec Nat.eq_dec j (blk_insts db)) as [I|I].
      + assert (j = tD) by (apply m_inD in I; rewrite m_inD in N; lia). subst j. destruct (el_term _ _ ED x Hx) as [NF _]. destruct X as [X|[Fm X]]; [congruence|].
        assert (DS : dst p tC (S tD)) by (apply EQ; exists (S tD); split; [exact X|constructor; apply m_nokey, Hk]).
        right. left. apply m_jt; [|exact N]. destruct DS as (t' & Ht' & E'). split; [|right; exists tC; split; [exact m_tC|exists t'; auto]].
        destruct (lv_near _ LI _ _ m_tC Ht') as [O|[_ Y]]; [eapply ends_opj; eauto|]. exfalso. pose proof (ends_down _ _ _ (ri_down _ RI) E'). lia.
      + right. right. destruct (m_fwd _ _ Hx) as (x' & Hx' & K & D & T). exists j, x'. split; [reflexivity|]. split; [exact Hx'|].
        split; [destruct (is_dead x'); [destruct (proj1 D eq_refl); [congruence|contradiction]|reflexivity]|].
        pose proof (kin_all _ _ K) as (_ & _ & K1 & _). destruct K as (_ & _ & _ & K2 & _). rewrite K1, K2. destruct X as [X|[Fm X]]; [auto|right]. split; [exact Fm|].
        destruct (m_tg_fwd j (S j) I X) as (t' & Ht' & [-> |[E _]]); [exact Ht'|]. exfalso. apply N. rewrite E. apply (term_in _ _ _ W Hd).
    - intros i x' H' D' F' L'. destruct (ms_nth _ _ _ _ MS _ _ H') as (x & H & K & D & _). apply kin_all in K as (_ & _ & K & _).
      rewrite (ms_redir _ _ _ _ MS) in L'. destruct (Nat.eqb_spec (S i) sD) as [|NE]; [discriminate|].
      assert (Dx : is_dead x = false) by (destruct (is_dead x); [rewrite (proj2 D) in D'; auto|reflexivity]).
      assert (N : ~ In i (blk_insts db)) by (intros X; rewrite (proj2 D) in D'; [discriminate|auto]).
      apply m_live. split; [apply (lv_fall _ LI i x H Dx); [congruence|exact L']|]. rewrite m_inD in *. intros X.
      assert (i = tD \/ ((sD <= i)%nat /\ i <> tD) \/ S i = sD) as [-> |[Y|Y]] by lia; [lia| |congruence]. lia.
    - intros i t' Hi Ht L'. apply m_live in Hi as [Hi N]. assert (DS : dst p' i t') by (exists t'; split; [exact Ht|constructor; exact L']).
      apply (m_dst i t' N) in DS as (u & DS & ->). apply m_hd_phi. eapply linv_dst; eauto.
    - intros k u' Hk Hu. destruct (proj2 m_ends _ _ Hu) as (u & Eu & ->). apply m_hd_phi. rewrite (ms_redir _ _ _ _ MS) in Hk.
      destruct (Nat.eqb_spec k sD) as [Ek|_]; [|apply (lv_redir _ LI k u Hk Eu)]. rewrite Ek in Eu. rewrite <- (ends_det _ _ _ (proj1 m_endsD) _ Eu). apply (bo_head _ _ OD).
    - intros i t' Hi Ht. apply m_live in Hi as [Hi N]. destruct (m_tg_bwd i t' N Ht) as (t & Ht' & X).
      assert (OR : opj p t \/ ((exists e, nth_error (b_insts p) i = Some e /\ f_multi (d_flags e) = false) /\ (t <= S i)%nat)).
      { destruct Ht' as [Ht'|(_ & _ & O)]; [apply (lv_near _ LI i t Hi Ht')|left; exact O]. }
      assert (FM : (exists e, nth_error (b_insts p) i = Some e /\ f_multi (d_flags e) = false) -> exists e, nth_error (b_insts p') i = Some e /\ f_multi (d_flags e) = false).
      { intros (e & He & Fe). destruct (m_fwd _ _ He) as (e' & He' & K & _). destruct K as (_ & _ & _ & K & _). exists e'. split; [exact He'|congruence]. }
      destruct X as [-> |[-> ->]]; destruct OR as [O|[O1 O2]].
      + left. apply m_opj, O.
      + right. split; [apply FM, O1|exact O2].
      + left. apply m_opj, m_head, O.
      + right. split; [apply FM, O1|lia].
    - intros Dy k Ok. apply m_dyn in Dy. apply m_opj in Ok. apply m_live. split; [apply (lv_dyn _ LI Dy k Ok)|]. intros I.
      assert (k = sD) by (apply m_hd_in; [split; [apply (lv_dyn _ LI Dy k Ok)|left; split; [exact Ok|left; exact Dy]]|exact I]). subst k. exact (el_dyn _ _ ED Dy Ok).
    - intros i x' H' D' F'. destruct (ms_nth _ _ _ _ MS _ _ H') as (x & H & K & D & _). pose proof (kin_all _ _ K) as (K1 & _). destruct K as (_ & _ & K2 & K3 & _).
      rewrite K1, K2. apply (lv_multi _ LI i x H); [|congruence]. destruct (is_dead x); [rewrite (proj2 D) in D'; auto|reflexivity].
  Qed.
  Lemma merge_blkok b bl : nth_error (b_blocks p) b = Some bl -> b <> d -> blkok p bl -> blkok p' bl.
  Proof.
    intros Hb NE [A B C]. assert (OUT : forall i, In i (blk_insts bl) -> ~ In i (blk_insts db)) by (intros i I J; apply NE; eapply (wf_disjoint p b d); eauto).
    constructor.
    - intros i Hi. apply m_live. auto.
    - intros i x' H1 H2 Hx'. destruct (ms_nth _ _ _ _ MS _ _ Hx') as (x & Hx & K & _). apply kin_all in K as (_ & _ & _ & K & _). rewrite K.
      destruct (B i x H1 H2 Hx) as [B1 B2]. split; [exact B1|]. intros J. apply m_jt_bwd in J as [J|J]; [exact (B2 J)|].
      assert (b = c) by (apply (wf_disjoint p b c bl cb sC W Hb Hc); [apply in_blk; lia|apply (term_in _ _ _ W Hc)]). subst b. assert (bl = cb) by congruence. subst bl. lia.
    - apply m_hd; [exact C|]. apply OUT. apply (term_in _ _ _ W Hb).
  Qed.
  Lemma merge_elig bl : elig p bl -> elig p' bl.
  Proof.
    intros [A B]. constructor.
    - intros x' Hx'. destruct (ms_nth _ _ _ _ MS _ _ Hx') as (x & Hx & K & _). pose proof (kin_all _ _ K) as (_ & _ & K1 & _ & K2). destruct K as (_ & K3 & _).
      rewrite K1, K2, K3. apply A, Hx.
    - intros Dy O. apply (B (proj1 m_dyn Dy)). apply m_opj, O.
  Qed.
  Lemma merge_same i j : ~ In i (blk_insts db) -> ~ In j (blk_insts db) -> (forall u, dst p i u -> dst p j u) -> forall u, dst p' i u -> dst p' j u.
  Proof. intros Ni Nj H u. rewrite (m_dst i u Ni), (m_dst j u Nj). intros (w & A & B). exists w. auto. Qed.
End Merge.

(** ** One round. [bs]: the blocks not yet merged away. *)
Record midlive (p0 p : bc) (bs : list nat) : Prop := {
  ml_inv : linv p;
  ml_blk : forall b bl, In b bs -> nth_error (b_blocks p0) b = Some bl -> blkok p bl /\ elig p bl;
  ml_same : forall a b bla blb k, In a bs -> In b bs -> nth_error (b_blocks p0) a = Some bla -> nth_error (b_blocks p0) b = Some blb ->
    block_key p0 bla = Some k -> block_key p0 blb = Some k -> forall u, dst p (terminator bla) u -> dst p (terminator blb) u
}.
Lemma midlive_sub p0 p bs bs' : incl bs' bs -> midlive p0 p bs -> midlive p0 p bs'.
Proof. intros IN [A B C]. constructor; [exact A|intros b bl Hb; apply B; auto|]. intros a b bla blb k Ha Hb. apply C; auto. Qed.
Lemma linv_snaps p s u : linv p -> linv (with_snaps p s u).
Proof. intros []. constructor; assumption. Qed.
Lemma midlive_snaps p0 p bs s u : midlive p0 p bs -> midlive p0 (with_snaps p s u) bs.
Proof.
  intros [A B C]. constructor; [apply linv_snaps, A| |exact C]. intros b bl Hb Hbl. destruct (B b bl Hb Hbl) as [[X1 X2 X3] [Y1 Y2]].
  split; constructor; assumption.
Qed.
Lemma merge_dups_live p0 k c cb : wf_blocks p0 -> nth_error (b_blocks p0) c = Some cb -> block_key p0 cb = Some k ->
  forall ds p rest p', NoDup (c :: ds ++ rest) -> (forall d, In d ds -> (c < d)%nat /\ exists db, nth_error (b_blocks p0) d = Some db /\ block_key p0 db = Some k) ->
    midway p0 p (c :: ds ++ rest) -> midlive p0 p (c :: ds ++ rest) -> merge_dups cb p ds = Some p' -> midlive p0 p' (c :: rest).
Proof.
  intros W Hc Kc. induction ds as [|d ds IH]; intros p rest p' ND HD MW ML E; cbn [merge_dups app] in *; [injection E as <-; exact ML|].
  destruct (HD d (or_introl eq_refl)) as (LT & db & Hd & Kd). pose proof MW as [RI BL SH LV]. pose proof ML as [LI BO SM].
  assert (W' : wf_blocks p) by (unfold wf_blocks; rewrite BL, (proj1 SH); exact W).
  destruct (key_head _ _ _ _ _ _ W Hc Hd Kc Kd) as [HO HM].
  assert (HO' : forall x y, nth_error (b_insts p) (bk_start cb) = Some x -> nth_error (b_insts p) (bk_start db) = Some y -> d_op y = d_op x).
  { intros x y Hx Hy. destruct (shrinks_nth _ _ _ _ SH Hx) as (x0 & Hx0 & -> & _). destruct (shrinks_nth _ _ _ _ SH Hy) as (y0 & Hy0 & -> & _). eauto. }
  assert (HM' : forall x y, nth_error (b_insts p) (terminator cb) = Some x -> nth_error (b_insts p) (terminator db) = Some y -> f_multi (d_flags y) = f_multi (d_flags x)).
  { intros x y Hx Hy. destruct (shrinks_nth _ _ _ _ SH Hx) as (x0 & Hx0 & _ & ->). destruct (shrinks_nth _ _ _ _ SH Hy) as (y0 & Hy0 & _ & ->). eauto. }
  destruct (merge_dup_ok p c cb d db RI W') as (p1 & E1 & R1 & S1 & B1 & L1 & D1); rewrite ?BL; auto.
  { apply (LV c cb); [left; reflexivity|exact Hc]. }
  rewrite E1 in E. assert (Nd : ~ In d (c :: ds ++ rest)).
  { intros [X|X]; [lia|]. apply NoDup_cons_iff in ND as [_ ND]. apply NoDup_cons_iff in ND as [ND _]. auto. }
  assert (IN : forall b, In b (c :: ds ++ rest) -> In b (c :: d :: ds ++ rest)) by (intros b [Hb|Hb]; [left; exact Hb|right; right; exact Hb]).
  assert (MS : mstep p cb db p1).
  { eapply merge_dup_step; [rewrite BL; exact Hd| |exact E1]. pose proof (wf_order _ _ _ _ _ W Hc Hd LT). pose proof (wf_block _ _ _ W Hc). pose proof (wf_block _ _ _ W Hd). unfold terminator. lia. }
  destruct (BO c cb (or_introl eq_refl) Hc) as [OC _]. destruct (BO d db (or_intror (or_introl eq_refl)) Hd) as [OD ED].
  assert (EQ : forall u, dst p (terminator db) u -> dst p (terminator cb) u) by (eapply SM; [right; left; reflexivity|left; reflexivity|..]; eassumption).
  assert (Hc' : nth_error (b_blocks p) c = Some cb) by (rewrite BL; exact Hc). assert (Hd' : nth_error (b_blocks p) d = Some db) by (rewrite BL; exact Hd).
  eapply (IH p1 rest p'); [| | | |exact E].
  - apply NoDup_cons_iff in ND as [N1 N2]. apply NoDup_cons_iff in N2 as [_ N2]. apply NoDup_cons; [|exact N2]. intros X. apply N1. right. exact X.
  - intros e He. apply HD. right. exact He.
  - constructor; [exact R1|congruence|eapply shrinks_trans; eauto|].
    intros b bl Hb Hbl. apply L1.
    + intros X. assert (b = d); [|subst b; exact (Nd Hb)]. eapply (wf_disjoint p0 b d bl db); eauto. apply (term_in p0 b bl W Hbl).
    + apply (LV b bl); [|exact Hbl]. apply IN, Hb.
  - constructor.
    + eapply (merge_linv p p1 c d cb db); eassumption.
    + intros b bl Hb Hbl. destruct (BO b bl (IN b Hb) Hbl) as [X Y]. split; [|eapply (merge_elig p p1 c d cb db); eassumption].
      eapply (merge_blkok p p1 c d cb db); try eassumption; [rewrite BL; exact Hbl|]. intros ->. exact (Nd Hb).
    + intros a b bla blb k' Ha Hb Hbla Hblb Ka Kb.
      assert (OUT : forall x bl, In x (c :: ds ++ rest) -> nth_error (b_blocks p0) x = Some bl -> ~ In (terminator bl) (blk_insts db)).
      { intros x bl Hx Hbl X. assert (x = d); [|subst x; exact (Nd Hx)]. eapply (wf_disjoint p0 x d bl db); eauto. apply (term_in p0 x bl W Hbl). }
      eapply (merge_same p p1 c d cb db); try eassumption; [exact (OUT _ _ Ha Hbla)|exact (OUT _ _ Hb Hblb)|].
      exact (SM a b bla blb k' (IN _ Ha) (IN _ Hb) Hbla Hblb Ka Kb).
Qed.
Lemma merge_groups_live p0 local : wf_blocks p0 -> forall gs p p', incl gs (groups p0) -> NoDup (concat gs) -> midway p0 p (concat gs) -> midlive p0 p (concat gs) ->
  merge_groups local p gs = Some p' -> linv p'.
Proof.
  intros W. induction gs as [|g gs IH]; intros p p' IN ND MW ML E; cbn [merge_groups concat] in *; [injection E as <-; apply ML|].
  pose proof (IN g (or_introl eq_refl)) as Hg.
  destruct (merge_group_ok p0 local g p (concat gs) W Hg ND MW) as (p1 & E1 & M1 & _). rewrite E1 in E.
  eapply (IH p1 p'); [intros x Hx; apply IN; right; exact Hx|eapply NoDup_app_r; exact ND|exact M1| |exact E].
  pose proof (group_sorted p0 g Hg) as GS. destruct (groups_ok p0 g Hg) as (k & _ & _ & G). unfold merge_group in E1.
  destruct g as [|c [|d ds]]; [destruct GS|injection E1 as <-; eapply midlive_sub; [|exact ML]; intros x Hx; right; exact Hx|].
  destruct GS as [_ LT]. destruct (G c (or_introl eq_refl)) as (_ & cb & Hc & Kc). pose proof MW as [RI BL SH LV]. rewrite BL, Hc in E1.
  eapply midlive_sub; [|eapply (merge_dups_live p0 k c cb W Hc Kc (d :: ds) _ (concat gs)); [exact ND| | | |exact E1]].
  - intros x Hx. right. exact Hx.
  - intros e He. split; [apply LT; exact He|]. destruct (G e (or_intror He)) as (_ & X). exact X.
  - constructor; [|exact BL|exact SH|exact LV]. destruct RI. constructor; assumption.
  - apply midlive_snaps, ML.
Qed.
Definition ready (p : bc) : Prop := linv p /\ rinv p /\ exact_reach p /\ flat (b_redirects p) /\ rebuilt p.
Lemma groups_in p b : In b (concat (groups p)) -> exists bl k, nth_error (b_blocks p) b = Some bl /\ block_key p bl = Some k.
Proof.
  intros H. apply in_concat in H as (g & Hg & Hb). destruct (groups_ok p g Hg) as (k & _ & _ & G). destruct (G b Hb) as (_ & bl & Hbl & K). eauto.
Qed.
Lemma dedup_once_live ord local p p' n : (forall gs, Permutation (ord gs) gs) -> ready p -> dedup_once ord local p = Some (p', n) -> linv p'.
Proof.
  intros PO (LI & RI & XR & FL & RB) E. unfold dedup_once in E. destruct (merge_groups local p (ord (groups p))) as [p1|] eqn:EM; [|discriminate].
  injection E as <- _. destruct (rebuilt_wf p RB) as [W L].
  eapply (merge_groups_live p local W (ord (groups p)) p p1); [| | | |exact EM].
  - intros g Hg. eapply Permutation_in; [apply PO|exact Hg].
  - eapply Permutation_NoDup; [symmetry; apply concat_perm, PO|apply groups_nodup].
  - constructor; [exact RI|reflexivity|apply shrinks_refl|]. intros b bl _ H. apply (L b bl H).
  - constructor; [exact LI| |].
    + intros b bl Hb Hbl. split; [eapply blkok_all; eassumption|]. apply (Permutation_in _ (concat_perm _ _ (PO (groups p)))) in Hb.
      destruct (groups_in p b Hb) as (bl' & k & Hbl' & K). assert (bl' = bl) by congruence. subst bl'. eapply elig_all; eassumption.
    + intros a b bla blb k _ _ Ha Hb Ka Kb. eapply same_dst; eassumption.
Qed.
Lemma dedup_blocks_live ord local : (forall gs, Permutation (ord gs) gs) -> forall fuel p p', ready p -> dedup_blocks ord fuel local p = Some p' -> linv p'.
Proof.
  intros PO. induction fuel as [|f IH]; intros p p' RD E; cbn [dedup_blocks] in E;
    destruct (dedup_once ord local p) as [[p1 n]|] eqn:E1; try discriminate; pose proof (dedup_once_live ord local p p1 n PO RD E1) as L1; destruct (n =? 0)%nat; try discriminate.
  - injection E as <-. exact L1.
  - injection E as <-. exact L1.
  - destruct RD as (LI & RI & XR & FL & RB). destruct (dedup_once_ok ord local p PO RI RB) as (p1' & n' & E1' & R1 & _). assert (p1' = p1) by congruence. subst p1'.
    destruct (linv_refresh p1 L1 R1) as (p2 & E2 & L2 & R2 & X2 & F2 & B2 & _). rewrite E2 in E. eapply IH; [|exact E]. unfold ready. auto.
Qed.
