(** What the analyses establish before deduplication: exactly the instructions that are supported by a
    live instruction are live, and targets of live jumps are live. *)
From Verif Require Import DedupModel FlowSpec CfgProof BlockProof LocalProof ProgramProof AnalysisProof DedupProof CommitProof DedupRedir DedupLive.
From Coq Require Import ZifyBool.
Open Scope Z_scope.

(** ** One pass over the code: which instructions are kept, and why. *)
Definition seed (dyn : bool) (l : list idata) (V : nat -> bool) (mode : option (option nat)) (i k : nat) : Prop :=
  (exists d, nth_error l k = Some d /\ is_reachable_jumpdest dyn d = true) \/
  (exists j e, (S j < k)%nat /\ nth_error l j = Some e /\ V j = true /\ static_target_after (i + j) e = Some (i + k)%nat) \/
  mode = Some (Some (i + k)%nat).
Lemma mark_once_why dyn : forall l mode i l' b, mark_once dyn mode i l = (l', b) ->
  exists V : nat -> bool,
    (forall k, nth_error l' k = if V k then nth_error l k else option_map set_dead (nth_error l k)) /\
    (mode = None -> V 0%nat = true) /\
    (forall k d, nth_error l k = Some d -> is_reachable_jumpdest dyn d = true -> V k = true) /\
    (forall k d, nth_error l k = Some d -> V k = true -> can_fall_through d = true \/ static_target_after (i + k) d = Some (S (i + k)) -> V (S k) = true) /\
    (forall k d, nth_error l k = Some d -> V k = true -> (mode = None /\ k = 0%nat) \/ seed dyn l V mode i k \/
       (exists j e, k = S j /\ nth_error l j = Some e /\ V j = true /\ (can_fall_through e = true \/ static_target_after (i + j) e = Some (i + k)%nat \/ seed dyn l V mode i j))) /\
    (b = false -> forall k d, nth_error l k = Some d -> V k = false -> is_dead d = false -> is_jump d = false).
Proof.
  induction l as [|d l IH]; intros mode i l' b E; cbn [mark_once] in E.
  - injection E as <- <-. exists (fun _ => true). split; [intros [|k]; reflexivity|]. repeat split; auto; intros k; intros; destruct k; discriminate.
  - assert (UP : forall (V : nat -> bool) v0 md k, (md = None \/ (v0 = true /\ md = Some (static_target_after i d) /\ static_target_after i d <> Some (S i)) \/ md = mode) ->
      seed dyn l V md (S i) k -> seed dyn (d :: l) (fun k => match k with O => v0 | S k => V k end) mode i (S k)).
    { intros V v0 md k MD [(e & He & X)|[(j & e & Hj & He & Hv & X)|X]].
      - left. exists e. auto.
      - right; left. exists (S j), e. split; [lia|]. split; [exact He|]. split; [exact Hv|]. replace (i + S j)%nat with (S i + j)%nat by lia. rewrite X. f_equal. lia.
      - destruct MD as [-> |[(-> & -> & N)| ->]]; [discriminate| |right; right; rewrite X; do 2 f_equal; lia].
        right; left. exists 0%nat, d. split; [injection X as X; destruct k; [exfalso; apply N; rewrite X; f_equal; lia|lia]|]. split; [reflexivity|]. split; [reflexivity|].
        rewrite Nat.add_0_r. injection X as ->. f_equal. lia. }
    destruct mode as [t|].
    + destruct (opt_eqb t i || is_reachable_jumpdest dyn d) eqn:Ec.
      * destruct (mark_once dyn None (S i) l) as [r b'] eqn:Er. injection E as <- <-.
        destruct (IH _ _ _ _ Er) as (V & A & B & C & D & F & G). exists (fun k => match k with O => true | S k => V k end).
        assert (S0 : seed dyn (d :: l) (fun k => match k with O => true | S k => V k end) (Some t) i 0).
        { apply orb_true_iff in Ec as [Ec|Ec]; [|left; exists d; auto]. destruct t as [t|]; [|discriminate]. cbn in Ec. right; right. do 2 f_equal. lia. }
        split; [intros [|k]; [reflexivity|apply A]|]. split; [discriminate|]. split; [intros [|k] e He; [reflexivity|apply (C k e He)]|].
        split; [intros [|k] e He Hv X; [apply B; reflexivity|apply (D k e He Hv); replace (S i + k)%nat with (i + S k)%nat by lia; exact X]|].
        split; [|intros Hb [|k] e He Hv; [discriminate|apply (G Hb k e He Hv)]].
        intros [|k] e He Hv; [auto|].
        destruct (F k e He Hv) as [[_ ->]|[X|(j & e' & -> & H1 & H2 & H3)]].
        -- right; right. exists 0%nat, d. split; [reflexivity|]. split; [reflexivity|]. split; [reflexivity|]. right; right. exact S0.
        -- right; left. apply (UP V true None k); [left; reflexivity|exact X].
        -- right; right. exists (S j), e'. split; [reflexivity|]. split; [exact H1|]. split; [exact H2|]. destruct H3 as [H3|[H3|H3]]; [left; exact H3|right; left; replace (i + S j)%nat with (S i + j)%nat by lia; rewrite H3; f_equal; lia|right; right; apply (UP V true None j); [left; reflexivity|exact H3]].
      * destruct (mark_once dyn (Some t) (S i) l) as [r b'] eqn:Er. injection E as <- <-.
        destruct (IH _ _ _ _ Er) as (V & A & B & C & D & F & G). exists (fun k => match k with O => false | S k => V k end).
        split; [intros [|k]; [reflexivity|apply A]|]. split; [discriminate|].
        split; [intros [|k] e He X; [cbn in He; injection He as <-; rewrite X, orb_true_r in Ec; discriminate|apply (C k e He X)]|].
        split; [intros [|k] e He Hv X; [discriminate|apply (D k e He Hv); replace (S i + k)%nat with (i + S k)%nat by lia; exact X]|].
        split; [|intros Hb [|k] e He Hv De; apply orb_false_iff in Hb as [Hb Hb'];
                 [cbn in He; injection He as <-; rewrite De in Hb; exact Hb|apply (G Hb' k e He Hv De)]].
        intros [|k] e He Hv; [discriminate|].
        destruct (F k e He Hv) as [[X ->]|[X|(j & e' & -> & H1 & H2 & H3)]]; [discriminate| |].
        -- right; left. apply (UP V false (Some t) k); [right; right; reflexivity|exact X].
        -- right; right. exists (S j), e'. split; [reflexivity|]. split; [exact H1|]. split; [exact H2|]. destruct H3 as [H3|[H3|H3]]; [left; exact H3|right; left; replace (i + S j)%nat with (S i + j)%nat by lia; rewrite H3; f_equal; lia|right; right; apply (UP V false (Some t) j); [right; right; reflexivity|exact H3]].
    + set (mode' := if can_fall_through d then None else
                      if opt_eqb (static_target_after i d) (S i) then None else Some (static_target_after i d)) in E.
      assert (Em : mode' = if can_fall_through d then None else
                      if opt_eqb (static_target_after i d) (S i) then None else Some (static_target_after i d)) by reflexivity.
      clearbody mode'.
      destruct (mark_once dyn mode' (S i) l) as [r b'] eqn:Er. injection E as <- <-.
      destruct (IH _ _ _ _ Er) as (V & A & B & C & D & F & G). exists (fun k => match k with O => true | S k => V k end).
      assert (MD : mode' = None \/ (true = true /\ mode' = Some (static_target_after i d) /\ static_target_after i d <> Some (S i)) \/ mode' = None).
      { rewrite Em. destruct (can_fall_through d); [auto|]. destruct (opt_eqb _ _) eqn:Eo; [auto|]. right; left. repeat split. intros X. rewrite X in Eo. cbn in Eo. rewrite Nat.eqb_refl in Eo. discriminate. }
      split; [intros [|k]; [reflexivity|apply A]|]. split; [reflexivity|]. split; [intros [|k] e He; [reflexivity|apply (C k e He)]|].
      split.
      { intros [|k] e He Hv X; [|apply (D k e He Hv); replace (S i + k)%nat with (i + S k)%nat by lia; exact X].
        cbn in He. injection He as <-. apply B. rewrite Em, Nat.add_0_r in *. destruct X as [-> | ->]; [reflexivity|].
        cbn. rewrite Nat.eqb_refl. destruct (can_fall_through d); reflexivity. }
      split; [|intros Hb [|k] e He Hv; [discriminate|apply (G Hb k e He Hv)]].
      intros [|k] e He Hv; [auto|].
      destruct (F k e He Hv) as [[X ->]|[X|(j & e' & -> & H1 & H2 & H3)]].
      * rewrite X in Em. right; right. exists 0%nat, d. split; [reflexivity|]. split; [reflexivity|]. split; [reflexivity|].
        destruct (can_fall_through d) eqn:Ef; [left; reflexivity|].
        destruct (opt_eqb (static_target_after i d) (S i)) eqn:Eo; [|discriminate]. right; left. rewrite Nat.add_0_r. destruct (static_target_after i d) as [t|]; [|discriminate]. cbn in Eo. f_equal. lia.
      * right; left. apply (UP V true mode' k); [exact MD|exact X].
      * right; right. exists (S j), e'. split; [reflexivity|]. split; [exact H1|]. split; [exact H2|]. destruct H3 as [H3|[H3|H3]]; [left; exact H3|right; left; replace (i + S j)%nat with (S i + j)%nat by lia; rewrite H3; f_equal; lia|right; right; apply (UP V true mode' j); [exact MD|exact H3]].
Qed.

(** ** The invariant of the stages before deduplication. *)
Record binv (p : bc) : Prop := {
  bi_red : b_redirects p = [];
  bi_dead : dead_struct (b_insts p);
  bi_last : forall i d, nth_error (b_insts p) i = Some d -> can_fall_through d = true -> (S i < length (b_insts p))%nat;
  bi_jd : forall i d, nth_error (b_insts p) i = Some d -> is_jumpdest d = true -> can_fall_through d = true;
  bi_near : forall i t, live_at (b_insts p) i -> tg p i t -> opj p t \/
    ((exists d, nth_error (b_insts p) i = Some d /\ f_multi (d_flags d) = false) /\ t = S i);
  bi_tl : forall i t, live_at (b_insts p) i -> tg p i t -> live_at (b_insts p) t;
  bi_dy : dynlive p -> forall k, opj p k -> live_at (b_insts p) k;
  bi_mu : forall i d, nth_error (b_insts p) i = Some d -> is_dead d = false -> f_multi (d_flags d) = true ->
    is_static_jump d = true /\ f_invalid (d_flags d) = false;
  bi_ns : forall i d, nth_error (b_insts p) i = Some d -> is_dead d = false -> is_static_jump d = true ->
    f_invalid (d_flags d) = true \/ f_multi (d_flags d) = true -> (d_target d <= i)%nat;
  bi_t0 : forall i d, nth_error (b_insts p) i = Some d -> f_static (d_flags d) = false -> d_target d = 0%nat
}.
Lemma ends_nil t u : ends [] t u <-> t = u.
Proof. split; [intros H; inversion H; [reflexivity|discriminate]|intros ->; constructor; reflexivity]. Qed.
Lemma dst_nil p i u : b_redirects p = [] -> (dst p i u <-> tg p i u).
Proof.
  intros R. unfold dst. rewrite R. split; [intros (t & A & B); apply ends_nil in B; congruence|intros A; exists u; split; [exact A|apply ends_nil; reflexivity]].
Qed.
(** What is missing for the invariant of deduplication. *)
Definition bsup (p : bc) : Prop := forall k, live_at (b_insts p) k -> k = 0%nat \/ jt p k \/ follows p k.
Lemma binv_linv p : binv p -> bsup p -> linv p.
Proof.
  intros B SUP. pose proof (bi_red _ B) as RD. constructor; rewrite ?RD.
  - exact SUP.
  - intros i d H D C _. destruct (nth_some (b_insts p) (S i)) as [d1 H1]; [eapply (bi_last _ B); eauto|]. exists d1. split; [exact H1|].
    destruct (is_dead d1) eqn:D1; [|reflexivity]. destruct (proj2 (bi_dead _ B) i d d1 H H1 D1); congruence.
  - intros i t Hi Ht _. split; [exact (bi_tl _ B i t Hi Ht)|]. destruct (bi_near _ B i t Hi Ht) as [O|[_ ->]].
    + left. split; [exact O|]. right. exists i. split; [exact Hi|]. apply dst_nil; assumption.
    + right. intros j d E H D. injection E as <-. destruct Ht as (d0 & H0 & J & _). assert (d0 = d) by congruence. subst d0.
      unfold is_static_jump in J. apply andb_true_iff in J as [J _]. unfold is_branching. rewrite J. reflexivity.
  - intros k u X. exfalso. apply X. reflexivity.
  - intros i t Hi Ht. destruct (bi_near _ B i t Hi Ht) as [O|[X ->]]; [left; exact O|right; split; [exact X|lia]].
  - exact (bi_dy _ B).
  - exact (bi_mu _ B).
Qed.
Lemma su_binv p p' : sameup p p' -> b_redirects p' = [] -> binv p -> binv p'.
Proof.
  intros SU R' B. pose proof (sameup_sym _ _ SU) as SU'.
  assert (N : forall k d', nth_error (b_insts p') k = Some d' -> exists d, nth_error (b_insts p) k = Some d /\ is_dead d' = is_dead d /\ is_static_jump d' = is_static_jump d /\
    d_flags d' = d_flags d /\ d_target d' = d_target d /\ can_fall_through d' = can_fall_through d /\ is_jumpdest d' = is_jumpdest d).
  { intros k d' H. destruct (su_nth _ _ SU _ _ H) as (d & H0 & U). apply upto_all in U. exists d. intuition congruence. }
  constructor.
  - exact R'.
  - split.
    + intros d H. destruct (N _ _ H) as (d0 & H0 & E & _). rewrite E. apply (proj1 (bi_dead _ B) _ H0).
    + intros k d d1 H H1 D. destruct (N _ _ H) as (e & He & E & _ & _ & _ & C & _). destruct (N _ _ H1) as (e1 & He1 & E1 & _). rewrite E, C.
      apply (proj2 (bi_dead _ B) k e e1 He He1). congruence.
  - intros i d H C. destruct (N _ _ H) as (e & He & _ & _ & _ & _ & E & _). rewrite (su_len _ _ SU). apply (bi_last _ B i e He). congruence.
  - intros i d H C. destruct (N _ _ H) as (e & He & _ & _ & _ & _ & E & E'). rewrite E. apply (bi_jd _ B i e He). congruence.
  - intros i t Hi Ht. destruct (bi_near _ B i t) as [O|[(d & H & M) ->]]; [exact (su_live _ _ SU' _ Hi)|exact (su_tg _ _ SU' _ _ Ht)|left; exact (su_opj _ _ SU _ O)|].
    right. split; [|reflexivity]. destruct (su_fwd _ _ _ _ SU H) as (d' & H' & U). apply upto_all in U. exists d'. split; [exact H'|]. destruct U as (_ & _ & U & _). congruence.
  - intros i t Hi Ht. apply (su_live _ _ SU). apply (bi_tl _ B i t); [exact (su_live _ _ SU' _ Hi)|exact (su_tg _ _ SU' _ _ Ht)].
  - intros D k O. apply (su_live _ _ SU). apply (bi_dy _ B); [exact (su_dyn _ _ SU' D)|exact (su_opj _ _ SU' _ O)].
  - intros i d H D M. destruct (N _ _ H) as (e & He & E1 & E2 & E3 & _). rewrite E2, E3. apply (bi_mu _ B i e He); congruence.
  - intros i d H D J X. destruct (N _ _ H) as (e & He & E1 & E2 & E3 & E4 & _). rewrite E4. apply (bi_ns _ B i e He); [congruence..|]. rewrite <- E3. exact X.
  - intros i d H X. destruct (N _ _ H) as (e & He & E1 & E2 & E3 & E4 & _). rewrite E4. apply (bi_t0 _ B i e He). congruence.
Qed.

(** ** One pass keeps the invariant; if it removes no jump, what remains is supported. *)
Section Pass.
  Variable p : bc.
  Hypotheses (B : binv p) (XR : exact_reach p).
  Variables (l : list idata) (b : bool).
  Hypothesis E : mark_once (b_dyn p) None 0 (b_insts p) = (l, b).
  Notation p1 := (with_insts p l).
  Let RD := bi_red _ B.
  Lemma jump_tg j e t : nth_error (b_insts p) j = Some e -> is_dead e = false -> static_target_after j e = Some t -> tg p j t /\ f_multi (d_flags e) = false.
  Proof.
    intros H D X. unfold static_target_after in X. destruct (is_static_jump e) eqn:J; [|discriminate]. cbn [andb] in X. destruct (Nat.ltb_spec j (d_target e)) as [L|L]; [|discriminate].
    injection X as <-. destruct (f_invalid (d_flags e)) eqn:I; [pose proof (bi_ns _ B j e H D J (or_introl I)); lia|].
    destruct (f_multi (d_flags e)) eqn:M; [pose proof (bi_ns _ B j e H D J (or_intror M)); lia|]. split; [|reflexivity]. exists e. rewrite M. auto.
  Qed.
  Lemma tg_target i d t : live_at (b_insts p) i -> nth_error (b_insts p) i = Some d -> tg p i t ->
    (exists u, nth_error (b_insts p) t = Some u /\ is_reachable_jumpdest (b_dyn p) u = true) \/ (t = S i /\ static_target_after i d = Some (S i)).
  Proof.
    intros Hi Hd Ht. destruct (bi_near _ B i t Hi Ht) as [(u & Hu & J)|[(d' & Hd' & M) ->]].
    - left. exists u. split; [exact Hu|]. unfold is_reachable_jumpdest. rewrite J. cbn. apply orb_true_iff. right. apply (proj2 XR t u Hu J).
      exists i. split; [exact Hi|]. apply dst_nil; assumption.
    - right. split; [reflexivity|]. assert (d' = d) by congruence. subst d'. destruct Ht as (d' & Hd'' & J & _ & X). assert (d' = d) by congruence. subst d'. rewrite M in X.
      unfold static_target_after. rewrite J, <- X. replace (i <? S i)%nat with true by lia. reflexivity.
  Qed.
  Lemma rjd_live k d : nth_error (b_insts p) k = Some d -> is_reachable_jumpdest (b_dyn p) d = true -> is_dead d = false.
  Proof.
    intros H R. unfold is_reachable_jumpdest in R. apply andb_true_iff in R as [J R].
    assert (LV : live_at (b_insts p) k).
    { apply orb_true_iff in R as [R|R]; [apply (bi_dy _ B); [apply (proj1 XR), R|exists d; auto]|].
      apply (proj2 XR k d H J) in R as (i & Hi & Ht). apply dst_nil in Ht; [|exact RD]. exact (bi_tl _ B i k Hi Ht). }
    destruct LV as (d' & H' & D). congruence.
  Qed.
  Lemma next_live k d d1 : nth_error (b_insts p) k = Some d -> is_dead d = false -> can_fall_through d = true -> nth_error (b_insts p) (S k) = Some d1 -> is_dead d1 = false.
  Proof. intros H D C H1. destruct (is_dead d1) eqn:D1; [|reflexivity]. destruct (proj2 (bi_dead _ B) k d d1 H H1 D1); congruence. Qed.
  Lemma pass_ok : binv p1 /\ (b = false -> bsup p1 /\ exact_reach p1).
  Proof.
    destruct (mark_once_why _ _ _ _ _ _ E) as (V & A & V0 & VR & VN & WHY & NJ).
    assert (SEED : forall k d, nth_error (b_insts p) k = Some d -> seed (b_dyn p) (b_insts p) V None 0 k ->
      (forall j e, (j < k)%nat -> nth_error (b_insts p) j = Some e -> V j = true -> is_dead e = false) -> is_reachable_jumpdest (b_dyn p) d = true).
    { intros k d H [(d' & H' & R)|[(j & e & Hj & He & Hv & X)|X]] IH; [congruence|cbn in X|discriminate].
      pose proof (IH j e ltac:(lia) He Hv) as De. destruct (jump_tg j e k He De X) as [T M]. assert (LJ : live_at (b_insts p) j) by (exists e; auto).
      destruct (tg_target j e k LJ He T) as [(u & Hu & R)|[-> _]]; [congruence|lia]. }
    assert (VL : forall n k d, (k <= n)%nat -> nth_error (b_insts p) k = Some d -> V k = true -> is_dead d = false).
    { induction n as [|n IH]; intros k d Hk H Hv.
      - assert (k = 0%nat) by lia. subst k. exact (proj1 (bi_dead _ B) d H).
      - destruct (WHY k d H Hv) as [[_ ->]|[X|(j & e & -> & He & Hj & X)]]; [exact (proj1 (bi_dead _ B) d H)| |].
        + apply (rjd_live k d H). apply (SEED k d H X). intros j0 e0 L0 H0 V0e; apply (IH j0 e0); [lia|exact H0|exact V0e].
        + assert (De : is_dead e = false) by (apply (IH j e); [lia|exact He|exact Hj]). destruct X as [X|[X|X]].
          * exact (next_live j e d He De X H).
          * cbn in X. destruct (jump_tg j e _ He De X) as [T _]. destruct (bi_tl _ B j (S j)) as (d' & H' & D); [exists e; auto|exact T|congruence].
          * assert (R : is_reachable_jumpdest (b_dyn p) e = true) by (apply (SEED j e He X); intros j0 e0 L0 H0 V0e; apply (IH j0 e0); [lia|exact H0|exact V0e]).
            unfold is_reachable_jumpdest in R. apply andb_true_iff in R as [R _]. exact (next_live j e d He De (bi_jd _ B j e He R) H). }
    assert (SD : forall d, is_static_jump (set_dead d) = is_static_jump d /\ f_invalid (d_flags (set_dead d)) = f_invalid (d_flags d) /\
      f_multi (d_flags (set_dead d)) = f_multi (d_flags d) /\ d_target (set_dead d) = d_target d /\ can_fall_through (set_dead d) = can_fall_through d /\
      is_jumpdest (set_dead d) = is_jumpdest d /\ f_static (d_flags (set_dead d)) = f_static (d_flags d) /\ d_reach (set_dead d) = d_reach d) by (intros d; repeat split).
    assert (LEN : length l = length (b_insts p)) by (apply (mark_once_spec _ _ _ _ _ _ E)).
    (* an entry of the new list *)
    assert (NTH : forall k d', nth_error l k = Some d' -> exists d, nth_error (b_insts p) k = Some d /\ is_static_jump d' = is_static_jump d /\ f_invalid (d_flags d') = f_invalid (d_flags d) /\
      f_multi (d_flags d') = f_multi (d_flags d) /\ d_target d' = d_target d /\ can_fall_through d' = can_fall_through d /\ is_jumpdest d' = is_jumpdest d /\ f_static (d_flags d') = f_static (d_flags d) /\ d_reach d' = d_reach d /\
      ((V k = true /\ d' = d) \/ (V k = false /\ is_dead d' = true))).
    { intros k d' H. rewrite A in H. destruct (V k) eqn:Ev.
      - exists d'. repeat (split; [first [exact H|reflexivity]|]). auto.
      - destruct (nth_error (b_insts p) k) as [d|]; [|discriminate]. cbn in H. injection H as <-. exists d. split; [reflexivity|]. pose proof (SD d) as X.
        decompose [and] X. repeat (split; [assumption|]). right. auto. }
    assert (FWD : forall k d, nth_error (b_insts p) k = Some d -> exists d', nth_error l k = Some d' /\ is_static_jump d' = is_static_jump d /\ f_invalid (d_flags d') = f_invalid (d_flags d) /\
      f_multi (d_flags d') = f_multi (d_flags d) /\ d_target d' = d_target d /\ is_jumpdest d' = is_jumpdest d).
    { intros k d H. destruct (nth_some l k) as [d' H']; [apply nth_lt in H; lia|]. exists d'. split; [exact H'|]. destruct (NTH k d' H') as (d0 & H0 & X). assert (d0 = d) by congruence. subst d0. intuition. }
    assert (TG1 : forall i t, tg p1 i t <-> tg p i t).
    { intros i t. unfold tg. cbn. split; intros (d & H & X & Y & Z).
      - destruct (NTH i d H) as (d0 & H0 & E1 & E2 & E3 & E4 & _). exists d0. rewrite <- E1, <- E2, <- E3, <- E4. auto.
      - destruct (FWD i d H) as (d0 & H0 & E1 & E2 & E3 & E4 & _). exists d0. rewrite E1, E2, E3, E4. auto. }
    assert (OP1 : forall t, opj p1 t <-> opj p t).
    { intros t. unfold opj. cbn. split; intros (d & H & X).
      - destruct (NTH t d H) as (d0 & H0 & E1 & E2 & E3 & E4 & E5 & E6 & _). exists d0. split; [exact H0|congruence].
      - destruct (FWD t d H) as (d0 & H0 & E1 & E2 & E3 & E4 & E5). exists d0. split; [exact H0|congruence]. }
    assert (LV1 : forall k, live_at l k -> V k = true /\ live_at (b_insts p) k).
    { intros k (d & H & D). destruct (NTH k d H) as (d0 & H0 & X). destruct X as (_ & _ & _ & _ & _ & _ & _ & _ & [[Ev ->]|[_ X]]); [|congruence]. split; [exact Ev|exists d0; auto]. }
    assert (LV2 : forall k d, nth_error (b_insts p) k = Some d -> V k = true -> live_at l k).
    { intros k d H Ev. exists d. split; [rewrite A, Ev; exact H|apply (VL k k d); auto]. }
    assert (DL : dynlive p1 -> dynlive p).
    { intros (i & d & H & U). cbn in H. destruct (LV1 i) as [Ev _]; [exists d; split; [exact H|unfold unresolved in U; destruct (is_dead d); [rewrite andb_false_r in U; discriminate|reflexivity]]|].
      rewrite A, Ev in H. exists i, d. auto. }
    assert (TV : forall i t, live_at l i -> tg p i t -> live_at l t).
    { intros i t Hi Ht. destruct (LV1 i Hi) as [Ev LP]. pose proof LP as (d & Hd & D). destruct (tg_target i d t LP Hd Ht) as [(u & Hu & R)|[-> X]].
      - exact (LV2 t u Hu (VR t u Hu R)).
      - destruct (bi_tl _ B i (S i) LP Ht) as (u & Hu & _). apply (LV2 (S i) u Hu). apply (VN i d Hd Ev). right. exact X. }
    split.
    - constructor; cbn [with_insts b_redirects b_insts].
      + exact RD.
      + eapply dead_struct_marked; [exact (bi_dead _ B)|exact E].
      + intros i d H C. rewrite LEN. destruct (NTH i d H) as (d0 & H0 & _ & _ & _ & _ & X & _). apply (bi_last _ B i d0 H0). congruence.
      + intros i d H C. destruct (NTH i d H) as (d0 & H0 & _ & _ & _ & _ & X & Y & _). rewrite X. apply (bi_jd _ B i d0 H0). congruence.
      + intros i t Hi Ht. apply TG1 in Ht. destruct (bi_near _ B i t (proj2 (LV1 i Hi)) Ht) as [O|[(d & H & M) ->]]; [left; apply OP1, O|].
        right. split; [|reflexivity]. destruct (FWD i d H) as (d0 & H0 & E1 & E2 & E3 & _). exists d0. split; [exact H0|congruence].
      + intros i t Hi Ht. apply TG1 in Ht. exact (TV i t Hi Ht).
      + intros D k O. apply OP1 in O as (d & H & J). apply (LV2 k d H). apply (VR k d H). unfold is_reachable_jumpdest. rewrite J, (proj2 (proj1 XR) (DL D)). reflexivity.
      + intros i d H D M. destruct (NTH i d H) as (d0 & H0 & E1 & E2 & E3 & _). rewrite E1, E2. apply (bi_mu _ B i d0 H0); [|congruence]. destruct (LV1 i) as [_ (d1 & H1 & D1)]; [exists d; auto|congruence].
      + intros i d H D J X. destruct (NTH i d H) as (d0 & H0 & E1 & E2 & E3 & E4 & _). rewrite E4. apply (bi_ns _ B i d0 H0); [|congruence|rewrite <- E2, <- E3; exact X].
        destruct (LV1 i) as [_ (d1 & H1 & D1)]; [exists d; auto|congruence].
      + intros i d H X. destruct (NTH i d H) as (d0 & H0 & E1 & E2 & E3 & E4 & E5 & E6 & E7 & _). rewrite E4. apply (bi_t0 _ B i d0 H0). congruence.
    - intros Hb. specialize (NJ Hb).
      assert (JV : forall i d, nth_error (b_insts p) i = Some d -> is_dead d = false -> is_jump d = true -> V i = true).
      { intros i d H D J. destruct (V i) eqn:Ev; [reflexivity|]. rewrite (NJ i d H Ev D) in J. discriminate. }
      assert (DL' : dynlive p -> dynlive p1).
      { intros (i & d & H & U). exists i, d. split; [|exact U]. cbn. rewrite A, (JV i d H); [exact H| |]; unfold unresolved in U; destruct (is_jump d), (is_dead d); cbn in U; rewrite ?andb_false_r in U; congruence. }
      assert (TJ : forall i t, live_at (b_insts p) i -> tg p i t -> live_at l i).
      { intros i t (d & Hd & D) (d' & Hd' & J & _). assert (d' = d) by congruence. subst d'. apply (LV2 i d Hd). apply (JV i d Hd D). unfold is_static_jump in J. apply andb_true_iff in J. tauto. }
      assert (RJ : forall k d, nth_error (b_insts p) k = Some d -> is_reachable_jumpdest (b_dyn p) d = true -> jt p1 k).
      { intros k d H R. unfold is_reachable_jumpdest in R. apply andb_true_iff in R as [J R]. split; [apply OP1; exists d; auto|].
        apply orb_true_iff in R as [R|R]; [left; apply DL', (proj1 XR), R|]. apply (proj2 XR k d H J) in R as (i & Hi & Ht). apply dst_nil in Ht; [|exact RD].
        right. exists i. split; [exact (TJ i k Hi Ht)|]. apply dst_nil; [exact RD|apply TG1, Ht]. }
      split.
      + intros k Hk. destruct (LV1 k Hk) as [Ev (d & H & D)]. destruct (WHY k d H Ev) as [[_ ->]|[X|(j & e & -> & He & Hj & X)]]; [auto| |].
        * right; left. apply (RJ k d H). apply (SEED k d H X). intros j e _ He Hv. exact (VL j j e (le_n _) He Hv).
        * right; right. exists j, e. split; [reflexivity|]. split; [cbn; rewrite A, Hj; exact He|]. pose proof (VL j j e (le_n _) He Hj) as De. split; [exact De|].
          destruct X as [X|[X|X]]; [left; exact X| |].
          -- cbn in X. destruct (jump_tg j e _ He De X) as [T M]. right. split; [exact M|apply TG1, T].
          -- left. assert (R : is_reachable_jumpdest (b_dyn p) e = true) by (apply (SEED j e He X); intros j0 e0 _ He0 Hv0; exact (VL j0 j0 e0 (le_n _) He0 Hv0)).
             unfold is_reachable_jumpdest in R. apply andb_true_iff in R as [R _]. exact (bi_jd _ B j e He R).
      + split.
        * cbn [with_insts b_dyn]. rewrite (proj1 XR). split; assumption.
        * intros u d' H J. cbn [with_insts b_insts] in H. destruct (NTH u d' H) as (d & H0 & E1 & E2 & E3 & E4 & E5 & E6 & E7 & E8 & _). rewrite E8. rewrite (proj2 XR u d H0) by congruence.
          split; intros (i & Hi & Ht); apply dst_nil in Ht; try exact RD.
          -- exists i. split; [exact (TJ i u Hi Ht)|]. apply dst_nil; [exact RD|apply TG1, Ht].
          -- exists i. split; [exact (proj2 (LV1 i Hi))|]. apply dst_nil; [exact RD|apply TG1, Ht].
  Qed.
End Pass.

(** ** A refresh establishes it. *)
Lemma same_sameup p p' : b_insts p' = b_insts p -> b_multi p' = b_multi p -> b_redirects p' = b_redirects p -> sameup p p'.
Proof. intros E1 E2 E3. constructor; rewrite ?E1, ?E2, ?E3; try tauto; auto. intros k d H. exists d. split; [exact H|left; reflexivity]. Qed.
Lemma same_bsup p p' : b_insts p' = b_insts p -> b_multi p' = b_multi p -> b_redirects p' = b_redirects p -> bsup p -> bsup p'.
Proof.
  intros E1 E2 E3 S k Hk. pose proof (same_sameup _ _ E1 E2 E3) as SU. rewrite E1 in Hk. destruct (S k Hk) as [X|[X|X]]; [auto|right; left; exact (su_jt _ _ SU _ X)|right; right; exact (su_follows _ _ SU _ X)].
Qed.
Lemma same_exact p p' : b_insts p' = b_insts p -> b_multi p' = b_multi p -> b_redirects p' = b_redirects p -> b_dyn p' = b_dyn p -> exact_reach p -> exact_reach p'.
Proof.
  intros E1 E2 E3 E4 [X1 X2]. pose proof (same_sameup _ _ E1 E2 E3) as SU. pose proof (sameup_sym _ _ SU) as SU'. split.
  - rewrite E4, X1. split; [apply su_dyn, SU|apply su_dyn, SU'].
  - rewrite E1. intros u d H J. rewrite (X2 u d H J). split; intros (i & Hi & Ht); exists i; (split; [exact Hi|]); [exact (su_dst _ _ SU _ _ Ht)|exact (su_dst _ _ SU' _ _ Ht)].
Qed.
Lemma mark_base fuel : forall p p', binv p -> exact_reach p -> mark_dead_code fuel p = Some p' -> binv p' /\ bsup p' /\ exact_reach p'.
Proof.
  induction fuel as [|f IH]; intros p p' B X E; cbn [mark_dead_code] in E; destruct (mark_once (b_dyn p) None 0 (b_insts p)) as [l b] eqn:Em;
    destruct (pass_ok p B X l b Em) as [B1 FIN]; destruct b; try discriminate.
  - injection E as <-. split; [exact B1|]. apply FIN. reflexivity.
  - destruct (recompute_reachable (recompute_dyn (with_insts p l))) as [p2|] eqn:Er; [|discriminate].
    destruct (recompute_exact (with_insts p l) p2) as [SU X2]; [cbn; rewrite (bi_red _ B); intros k v []|exact Er|].
    destruct (recompute_reachable_shape _ _ Er) as (_ & _ & _ & R & _). cbn in R. rewrite (bi_red _ B) in R.
    exact (IH p2 p' (su_binv _ _ SU R B1) X2 E).
  - injection E as <-. split; [exact B1|]. apply FIN. reflexivity.
Qed.
Lemma refresh_base p p' : binv p -> refresh_cfg p = Some p' -> binv p' /\ bsup p' /\ exact_reach p' /\ rebuilt p' /\ b_snaps p' = b_snaps p.
Proof.
  intros B E. unfold refresh_cfg in E. destruct (recompute_reachable (recompute_dyn p)) as [p1|] eqn:E1; [|discriminate].
  destruct (recompute_exact p p1) as [SU X1]; [rewrite (bi_red _ B); intros k v []|exact E1|].
  destruct (recompute_reachable_shape _ _ E1) as (_ & _ & _ & R1 & _ & S1 & _). cbn in R1, S1. rewrite (bi_red _ B) in R1.
  pose proof (su_binv _ _ SU R1 B) as B1. destruct (mark_dead_code _ p1) as [p2|] eqn:E2; [|discriminate].
  destruct (mark_base _ _ _ B1 X1 E2) as (B2 & SUP2 & X2). destruct (mark_dead_code_other _ _ _ E2) as (_ & _ & S2 & _).
  unfold compress_redirects in E. rewrite (bi_red _ B2) in E. cbn in E. injection E as <-.
  assert (R2 : b_redirects (rebuild_cfg (with_redirects p2 [])) = b_redirects p2) by (cbn; symmetry; exact (bi_red _ B2)).
  split; [apply (su_binv p2); [apply same_sameup; auto|reflexivity|exact B2]|]. split; [apply (same_bsup p2); auto|].
  split; [apply (same_exact p2); auto|]. split; [reflexivity|]. cbn. congruence.
Qed.

(** ** The start. *)
Lemma initial_base prog : raw prog -> (forall i d, nth_error prog i = Some d -> d_target d = 0%nat) ->
  (forall i d, nth_error prog i = Some d -> can_fall_through d = true -> (S i < length prog)%nat) ->
  (forall i d, nth_error prog i = Some d -> is_jumpdest d = true -> can_fall_through d = true) -> binv (initial prog).
Proof.
  intros RAW T0 LA JD.
  assert (NT : forall i t, ~ tg (initial prog) i t).
  { intros i t (d & H & J & _). cbn in H. destruct (RAW i d H) as (X & _). unfold is_static_jump in J. rewrite X, andb_false_r in J. discriminate. }
  assert (LV : forall i d, nth_error prog i = Some d -> is_dead d = false) by (intros i d H; apply (RAW i d H)).
  constructor; cbn.
  - reflexivity.
  - split; [intros d H; exact (LV _ _ H)|]. intros k d d1 _ H D. rewrite (LV _ _ H) in D. discriminate.
  - exact LA.
  - exact JD.
  - intros i t _ H. destruct (NT _ _ H).
  - intros i t _ H. destruct (NT _ _ H).
  - intros _ k (d & H & _). exists d. split; [exact H|exact (LV _ _ H)].
  - intros i d H _ M. destruct (RAW i d H) as (_ & _ & X & _). congruence.
  - intros i d H _ J. destruct (RAW i d H) as (X & _). unfold is_static_jump in J. rewrite X, andb_false_r in J. discriminate.
  - intros i d H _. exact (T0 i d H).
Qed.

(** ** Committing resolutions. *)
(** A resolution [r] of the jump [d] at [i] that can be committed. *)
Definition okr (p : bc) (i : nat) (d : idata) (r : jres) : Prop := is_dead d = false ->
  f_static (d_flags d) && negb (cond_known (j_cond r)) = true \/
  match j_target r with
  | JResolved [t] => live_at (b_insts p) t /\ (opj p t \/ t = S i)
  | JResolved ts => f_static (d_flags d) = false /\ forall t, In t ts -> live_at (b_insts p) t /\ opj p t
  | JInvalid | JBottom => f_static (d_flags d) = false
  | JTop => True
  end.
Lemma commit_base bot p i r d : binv p -> nth_error (b_insts p) i = Some d -> is_jump d = true -> okr p i d r ->
  binv (commit_step bot p (i, r)) /\ (forall k, live_at (b_insts (commit_step bot p (i, r))) k <-> live_at (b_insts p) k) /\
  (forall k, opj (commit_step bot p (i, r)) k <-> opj p k).
Proof.
  intros B Hd HJ OK. destruct (commit_step_insts bot p i r d Hd) as (d' & m' & E1 & E2 & E3 & E4 & E5 & E6).
  set (p' := commit_step bot p (i, r)) in *.
  destruct (commit_one_same bot i r d _ d' m' E1) as (SM & DD & CC). pose proof SM as (SO & SIO & _).
  assert (CFT : can_fall_through d' = true -> can_fall_through d = true).
  { intros X. destruct (can_fall_through d) eqn:Y; [reflexivity|]. rewrite (no_fall_mono d d' SM CC Y) in X. discriminate. }
  assert (JD : is_jumpdest d' = is_jumpdest d) by (unfold is_jumpdest; congruence).
  assert (NJ : is_jumpdest d = false) by (unfold is_jumpdest, is_jump, OP_JUMP, OP_JUMPI, OP_JUMPDEST in *; lia).
  assert (HJ' : is_jump d' = true) by (unfold is_jump in *; rewrite SO; exact HJ).
  assert (LV : forall k, live_at (b_insts p') k <-> live_at (b_insts p) k).
  { intros k. unfold live_at. destruct (Nat.eq_dec k i) as [-> |N]; [|rewrite (proj1 (E4 k N)); tauto]. rewrite E3, Hd. split; intros (x & H & D); injection H as <-; eexists; (split; [reflexivity|congruence]). }
  assert (OP : forall k, opj p' k <-> opj p k).
  { intros k. unfold opj. destruct (Nat.eq_dec k i) as [-> |N]; [|rewrite (proj1 (E4 k N)); tauto]. rewrite E3, Hd. split; intros (x & H & D); injection H as <-; congruence. }
  split; [|split; [exact LV|exact OP]].
  assert (TG : forall k t, k <> i -> tg p' k t <-> tg p k t).
  { intros k t N. unfold tg. destruct (E4 k N) as [-> ->]. tauto. }
  (* what the new entry is *)
  assert (NEW : is_dead d = false ->
    (* same target data *)
    (f_static (d_flags d') = f_static (d_flags d) /\ f_invalid (d_flags d') = f_invalid (d_flags d) /\ f_multi (d_flags d') = f_multi (d_flags d) /\ d_target d' = d_target d /\ m' = b_multi p i) \/
    (exists t, f_static (d_flags d') = true /\ f_invalid (d_flags d') = false /\ f_multi (d_flags d') = false /\ d_target d' = t /\ live_at (b_insts p) t /\ (opj p t \/ t = S i)) \/
    (exists ts, f_static (d_flags d') = true /\ f_invalid (d_flags d') = false /\ f_multi (d_flags d') = true /\ m' = Some ts /\ d_target d' = d_target d /\ f_static (d_flags d) = false /\
      forall t, In t ts -> live_at (b_insts p) t /\ opj p t) \/
    (f_static (d_flags d') = true /\ f_invalid (d_flags d') = true /\ f_multi (d_flags d') = false /\ d_target d' = d_target d /\ f_static (d_flags d) = false)).
  { intros D. specialize (OK D). unfold commit_one in E1. destruct (f_static (d_flags d) && negb (cond_known (j_cond r))) eqn:Es.
    - injection E1 as <- <-. left. auto.
    - destruct OK as [OK|OK]; [discriminate|]. destruct (j_target r) as [|[|t [|t2 ts]]| |].
      + destruct bot; injection E1 as <- <-; [left; repeat split|right; right; right; cbn; auto].
      + injection E1 as <- <-. right; right; left. exists []. cbn. destruct OK as [O1 O2]. do 6 (split; [auto|]). intros u [].
      + injection E1 as <- <-. right; left. exists t. cbn. destruct OK as [O1 O2]. auto 10.
      + injection E1 as <- <-. right; right; left. exists (t :: t2 :: ts). cbn. destruct OK as [O1 O2]. do 6 (split; [auto|]). exact O2.
      + injection E1 as <- <-. right; right; right. cbn. auto.
      + injection E1 as <- <-. left. repeat split. }
  assert (ST : f_static (d_flags d') = false -> f_static (d_flags d) = false /\ d_target d' = d_target d).
  { unfold commit_one in E1. destruct (f_static (d_flags d) && negb (cond_known (j_cond r))); [injection E1 as <- <-; auto|].
    destruct (j_target r) as [|[|t [|t2 ts]]| |]; [destruct bot| | | | |]; injection E1 as <- <-; cbn; intros; try discriminate; auto. }
  (* targets of the new entry *)
  assert (TGI : forall t, live_at (b_insts p) i -> tg p' i t -> (tg p i t /\ f_multi (d_flags d') = f_multi (d_flags d)) \/ (live_at (b_insts p) t /\ (opj p t \/ (f_multi (d_flags d') = false /\ t = S i)))).
  { intros t (d0 & H0 & D0) (x & Hx & J & V & X). assert (d0 = d) by congruence. assert (x = d') by congruence. subst d0 x. rewrite E5 in X.
    destruct (NEW D0) as [(F1 & F2 & F3 & F4 & F5)|[(t' & F1 & F2 & F3 & F4 & F5 & F6)|[(ts & F1 & F2 & F3 & F4 & F5 & F6 & F7)|(F1 & F2 & _)]]].
    - left. split; [|exact F3]. exists d. split; [exact Hd|]. unfold is_static_jump in *. rewrite HJ, <- F1. rewrite HJ' in J. split; [exact J|]. split; [congruence|]. rewrite <- F3, <- F4, <- F5. exact X.
    - right. rewrite F3 in X. subst t. rewrite F4. split; [exact F5|]. destruct F6 as [F6|F6]; auto.
    - right. rewrite F3 in X. destruct X as (ts' & Ets & Hin). assert (ts' = ts) by congruence. subst ts'. destruct (F7 t Hin). auto.
    - congruence. }
  constructor.
  - rewrite E2. exact (bi_red _ B).
  - destruct (bi_dead _ B) as [D0 DS]. split.
    + intros x Hx. destruct (Nat.eq_dec 0 i) as [<- |N]; [|rewrite (proj1 (E4 0%nat N)) in Hx; auto]. assert (x = d') by congruence. subst x. rewrite DD. exact (D0 d Hd).
    + intros k x x1 Hx Hx1 Dx1.
      assert (Y1 : exists y1, nth_error (b_insts p) (S k) = Some y1 /\ is_dead y1 = true).
      { destruct (Nat.eq_dec (S k) i) as [<- |N]; [|rewrite (proj1 (E4 (S k) N)) in Hx1; eauto]. assert (x1 = d') by congruence. subst x1. exists d. split; [exact Hd|congruence]. }
      destruct Y1 as (y1 & Hy1 & Dy1).
      destruct (Nat.eq_dec k i) as [-> |N]; [|rewrite (proj1 (E4 k N)) in Hx; exact (DS k x y1 Hx Hy1 Dy1)].
      assert (x = d') by congruence. subst x. rewrite DD. destruct (DS i d y1 Hd Hy1 Dy1) as [X|X]; [auto|]. right. exact (no_fall_mono d d' SM CC X).
  - intros k x Hx C. rewrite E6. destruct (Nat.eq_dec k i) as [-> |N]; [|rewrite (proj1 (E4 k N)) in Hx; exact (bi_last _ B k x Hx C)].
    assert (x = d') by congruence. subst x. exact (bi_last _ B i d Hd (CFT C)).
  - intros k x Hx C. destruct (Nat.eq_dec k i) as [-> |N]; [|rewrite (proj1 (E4 k N)) in Hx; exact (bi_jd _ B k x Hx C)]. assert (x = d') by congruence. subst x. congruence.
  - intros k t Hk Ht. apply LV in Hk. destruct (Nat.eq_dec k i) as [-> |N].
    + destruct (TGI t Hk Ht) as [[T M]|[_ [O|[M ->]]]]; [|left; apply OP, O|right; split; [exists d'; auto|reflexivity]].
      destruct (bi_near _ B i t Hk T) as [O|[(x & Hx & Mx) ->]]; [left; apply OP, O|]. right. split; [|reflexivity]. exists d'. split; [exact E3|congruence].
    + apply (TG k t N) in Ht. destruct (bi_near _ B k t Hk Ht) as [O|[(x & Hx & Mx) ->]]; [left; apply OP, O|]. right. split; [|reflexivity]. exists x. rewrite (proj1 (E4 k N)). auto.
  - intros k t Hk Ht. apply LV in Hk. apply LV. destruct (Nat.eq_dec k i) as [-> |N].
    + destruct (TGI t Hk Ht) as [[T _]|[L _]]; [exact (bi_tl _ B i t Hk T)|exact L].
    + apply (TG k t N) in Ht. exact (bi_tl _ B k t Hk Ht).
  - intros (k & x & Hx & U) u O. apply LV. apply (bi_dy _ B); [|apply OP, O]. destruct (Nat.eq_dec k i) as [-> |N]; [|rewrite (proj1 (E4 k N)) in Hx; exists k, x; auto].
    assert (x = d') by congruence. subst x. exists i, d. split; [exact Hd|]. unfold unresolved in *. rewrite HJ' in U. rewrite HJ. rewrite DD in U. cbn in *.
    destruct (f_static (d_flags d')) eqn:F; [discriminate|]. rewrite (proj1 (ST eq_refl)). exact U.
  - intros k x Hx D M. destruct (Nat.eq_dec k i) as [-> |N]; [|rewrite (proj1 (E4 k N)) in Hx; exact (bi_mu _ B k x Hx D M)]. assert (x = d') by congruence. subst x. rewrite DD in D.
    unfold is_static_jump. rewrite HJ'. destruct (NEW D) as [(F1 & F2 & F3 & F4 & F5)|[(t' & F1 & F2 & F3 & _)|[(ts & F1 & F2 & F3 & _)|(F1 & F2 & F3 & _)]]]; [|congruence|rewrite F1, F2; auto|congruence].
    destruct (bi_mu _ B i d Hd D) as [X Y]; [congruence|]. unfold is_static_jump in X. rewrite HJ in X. rewrite F1, F2. auto.
  - intros k x Hx D J X. destruct (Nat.eq_dec k i) as [-> |N]; [|rewrite (proj1 (E4 k N)) in Hx; exact (bi_ns _ B k x Hx D J X)]. assert (x = d') by congruence. subst x. rewrite DD in D.
    destruct (NEW D) as [(F1 & F2 & F3 & F4 & F5)|[(t' & F1 & F2 & F3 & _)|[(ts & F1 & F2 & F3 & F4 & F5 & F6 & _)|(F1 & F2 & F3 & F5 & F6)]]].
    + rewrite F4. apply (bi_ns _ B i d Hd D); [unfold is_static_jump in *; rewrite HJ, <- F1; rewrite HJ' in J; exact J|]. rewrite <- F2, <- F3. exact X.
    + destruct X; congruence.
    + rewrite F5, (bi_t0 _ B i d Hd F6). apply Nat.le_0_l.
    + rewrite F5, (bi_t0 _ B i d Hd F6). apply Nat.le_0_l.
  - intros k x Hx X. destruct (Nat.eq_dec k i) as [-> |N]; [|rewrite (proj1 (E4 k N)) in Hx; exact (bi_t0 _ B k x Hx X)]. assert (x = d') by congruence. subst x.
    destruct (ST X) as [Y ->]. exact (bi_t0 _ B i d Hd Y).
Qed.
(** A list of resolutions, each of a different jump and good for the instruction it was made for. *)
Lemma commits_base bot : forall rs p, binv p -> NoDup (map fst rs) ->
  (forall i r, In (i, r) rs -> exists d, nth_error (b_insts p) i = Some d /\ is_jump d = true /\ okr p i d r) -> binv (fold_left (commit_step bot) rs p).
Proof.
  induction rs as [|[i r] rs IH]; intros p B ND G; cbn [fold_left]; [exact B|]. cbn in ND. inversion ND as [|? ? N1 N2]; subst.
  destruct (G i r (or_introl eq_refl)) as (d & Hd & HJ & OK). destruct (commit_base bot p i r d B Hd HJ OK) as (B' & LV & OP).
  apply (IH _ B' N2). intros k s Hin. destruct (G k s (or_intror Hin)) as (e & He & Je & Oe). exists e.
  assert (k <> i) by (intros ->; apply N1; apply (in_map fst) in Hin; exact Hin).
  destruct (commit_step_insts bot p i r d Hd) as (d' & m' & _ & _ & _ & E4 & _). rewrite (proj1 (E4 k H)). split; [exact He|]. split; [exact Je|].
  intros D. destruct (Oe D) as [X|X]; [left; exact X|right]. destruct (j_target s) as [|[|t [|t2 ts]]| |]; auto.
  - destruct X as [X1 X2]. split; [exact X1|intros t []].
  - rewrite LV, OP. exact X.
  - destruct X as [X1 X2]. split; [exact X1|]. intros u Hu. rewrite LV, OP. exact (X2 u Hu).
Qed.
Lemma commit_resolved_base rs p p' : binv p -> NoDup (map fst rs) ->
  (forall i r, In (i, r) rs -> exists d, nth_error (b_insts p) i = Some d /\ is_jump d = true /\ okr p i d r) -> commit_resolved rs p = Some p' -> binv (recompute_dyn p').
Proof.
  intros B ND G E. unfold commit_resolved in E. pose proof (commits_base (existsb (fun ir => is_top (snd ir)) rs) rs p B ND G) as B1.
  destruct (recompute_reachable_shape _ _ E) as (L & P & M & R & _). rewrite (bi_red _ B1) in R.
  eapply (su_binv (fold_left (commit_step (existsb (fun ir => is_top (snd ir)) rs)) rs p)); [|exact R|exact B1].
  constructor; cbn; auto; rewrite R, (bi_red _ B1); tauto.
Qed.
