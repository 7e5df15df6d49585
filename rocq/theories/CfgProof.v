(** Lemmas about dead code and the basic-block partition. *)
From Verif Require Import BlockModel FlowSpec.
From Coq Require Import ZifyBool.
Open Scope Z_scope.

(** ** Lists. *)
Lemma nth_lt {A} (l : list A) i x : nth_error l i = Some x -> (i < length l)%nat.
Proof. intros H. apply nth_error_Some. congruence. Qed.
Lemma nth_some {A} (l : list A) i : (i < length l)%nat -> exists x, nth_error l i = Some x.
Proof. intros H. destruct (nth_error l i) eqn:E; eauto. apply nth_error_None in E. lia. Qed.
Lemma upd_nth_length {A} k (f : A -> A) l : length (upd_nth k f l) = length l.
Proof. revert k. induction l as [|x l IH]; intros [|k]; cbn; auto. Qed.
Lemma nth_upd_nth {A} k (f : A -> A) l i :
  nth_error (upd_nth k f l) i = if (i =? k)%nat then option_map f (nth_error l i) else nth_error l i.
Proof.
  revert k i. induction l as [|x l IH]; intros [|k] [|i]; cbn; auto.
  - destruct (i =? k)%nat; reflexivity.
Qed.
Lemma upd_same {A} (f : nat -> A) k v : upd f k v k = v.
Proof. unfold upd. rewrite Nat.eqb_refl. reflexivity. Qed.
Lemma upd_other {A} (f : nat -> A) k v i : i <> k -> upd f k v i = f i.
Proof. unfold upd. intros H. apply Nat.eqb_neq in H. rewrite H. reflexivity. Qed.

(** ** The part of an instruction the passes never change. *)
Definition same (d0 d : idata) : Prop :=
  d_op d = d_op d0 /\ d_io d = d_io d0 /\ f_disabled (d_flags d) = f_disabled (d_flags d0) /\
  f_unknown (d_flags d) = f_unknown (d_flags d0) /\ d_data d = d_data d0.
Lemma same_refl d : same d d. Proof. repeat split. Qed.
Lemma same_trans a b c : same a b -> same b c -> same a c.
Proof. unfold same. intuition congruence. Qed.
Definition skel (l0 l : list idata) : Prop :=
  length l = length l0 /\ forall i d0 d, nth_error l0 i = Some d0 -> nth_error l i = Some d -> same d0 d.
Lemma skel_refl l : skel l l.
Proof. split; auto. intros i a b H1 H2. rewrite H1 in H2. injection H2 as <-. apply same_refl. Qed.
Lemma skel_trans a b c : skel a b -> skel b c -> skel a c.
Proof.
  intros [L1 H1] [L2 H2]. split; [congruence|]. intros i x z Hx Hz.
  destruct (nth_some b i) as [y Hy]; [apply nth_lt in Hx; congruence|].
  eapply same_trans; eauto.
Qed.
Lemma skel_nth l0 l i d0 : skel l0 l -> nth_error l0 i = Some d0 ->
  exists d, nth_error l i = Some d /\ same d0 d.
Proof.
  intros [L H] Hn. destruct (nth_some l i) as [d Hd]; [apply nth_lt in Hn; congruence|]. eauto.
Qed.

(** ** [mark_once]. *)
Lemma mark_once_spec dyn : forall l mode i l' b, mark_once dyn mode i l = (l', b) ->
  length l' = length l /\
  (forall k d', nth_error l' k = Some d' ->
     exists d, nth_error l k = Some d /\ (d' = d \/ d' = set_dead d)) /\
  (forall k d, nth_error l k = Some d -> is_reachable_jumpdest dyn d = true -> nth_error l' k = Some d) /\
  (mode = None -> nth_error l' 0 = nth_error l 0) /\
  (forall k d, nth_error l' k = Some d -> is_dead d = false ->
     can_fall_through d = true \/ opt_eqb (static_target_after (i + k) d) (S (i + k)) = true ->
     nth_error l' (S k) = nth_error l (S k)) /\
  (forall k d d1, nth_error l' k = Some d -> nth_error l' (S k) = Some d1 -> nth_error l (S k) <> Some d1 ->
     is_dead d = true \/ can_fall_through d = false).
Proof.
  induction l as [|d l IH]; intros mode i l' b E; cbn [mark_once] in E.
  - injection E as <- <-. repeat split; auto; intros [|k]; cbn; try discriminate.
  - destruct mode as [t|].
    + destruct (opt_eqb t i || is_reachable_jumpdest dyn d) eqn:Ec.
      * destruct (mark_once dyn None (S i) l) as [r b'] eqn:Er. injection E as <- <-.
        destruct (IH _ _ _ _ Er) as (L & P & J & F & T & D).
        split; [cbn; congruence|].
        split; [intros [|k] d' Hk; [injection Hk as <-; exists d; split; [reflexivity|auto]|exact (P k d' Hk)]|].
        split; [intros [|k] d' Hk Hr; [exact Hk|exact (J k d' Hk Hr)]|].
        split; [discriminate|].
        split.
        { intros [|k] d' Hk Hl Hf; cbn [nth_error]; [apply F; reflexivity|].
          apply (T k d' Hk Hl). replace (S i + k)%nat with (i + S k)%nat by lia. exact Hf. }
        { intros [|k] d0 d1 H0 H1 H2; [|exact (D k d0 d1 H0 H1 H2)].
          cbn [nth_error] in *. rewrite (F eq_refl) in H1. congruence. }
      * destruct (mark_once dyn (Some t) (S i) l) as [r b'] eqn:Er. injection E as <- <-.
        destruct (IH _ _ _ _ Er) as (L & P & J & F & T & D).
        split; [cbn; congruence|].
        split; [intros [|k] d' Hk; [injection Hk as <-; exists d; split; [reflexivity|auto]|exact (P k d' Hk)]|].
        split; [intros [|k] d' Hk Hr; [injection Hk as <-; rewrite Hr, orb_true_r in Ec; discriminate|exact (J k d' Hk Hr)]|].
        split; [discriminate|].
        split.
        { intros [|k] d' Hk Hl Hf; cbn [nth_error] in *; [injection Hk as <-; discriminate|].
          apply (T k d' Hk Hl). replace (S i + k)%nat with (i + S k)%nat by lia. exact Hf. }
        { intros [|k] d0 d1 H0 H1 H2; [|exact (D k d0 d1 H0 H1 H2)].
          injection H0 as <-. left. reflexivity. }
    + set (mode' := if can_fall_through d then None else
                      if opt_eqb (static_target_after i d) (S i) then None else Some (static_target_after i d)) in E.
      assert (Em : mode' = if can_fall_through d then None else
                      if opt_eqb (static_target_after i d) (S i) then None else Some (static_target_after i d)) by reflexivity.
      clearbody mode'.
      destruct (mark_once dyn mode' (S i) l) as [r b'] eqn:Er. injection E as <- <-.
      destruct (IH _ _ _ _ Er) as (L & P & J & F & T & D).
      split; [cbn; congruence|].
      split; [intros [|k] d' Hk; [injection Hk as <-; exists d; split; [reflexivity|auto]|exact (P k d' Hk)]|].
      split; [intros [|k] d' Hk Hr; [exact Hk|exact (J k d' Hk Hr)]|].
      split; [reflexivity|].
      split.
      { intros [|k] d' Hk Hl Hf; cbn [nth_error] in *.
        - injection Hk as <-. apply F. rewrite Nat.add_0_r in Hf. subst mode'. destruct Hf as [-> | ->]; [reflexivity|].
          destruct (can_fall_through d); reflexivity.
        - apply (T k d' Hk Hl). replace (S i + k)%nat with (i + S k)%nat by lia. exact Hf. }
      { intros [|k] d0 d1 H0 H1 H2; [|exact (D k d0 d1 H0 H1 H2)].
        cbn [nth_error] in *. injection H0 as <-. destruct (can_fall_through d) eqn:Ef; [|auto].
        rewrite (F Em) in H1. congruence. }
Qed.

(** Number of live jumps; decreases whenever a jump is marked. *)
Definition live_jumps (l : list idata) : nat := length (filter (fun d => is_jump d && negb (is_dead d)) l).
Lemma mark_once_jumps dyn : forall l mode i l' b, mark_once dyn mode i l = (l', b) ->
  (live_jumps l' <= live_jumps l)%nat /\ (b = true -> (live_jumps l' < live_jumps l)%nat).
Proof.
  unfold live_jumps.
  induction l as [|d l IH]; intros mode i l' b E; cbn [mark_once] in E.
  - injection E as <- <-. split; [auto|discriminate].
  - assert (Hk : forall r b0 m, mark_once dyn m (S i) l = (r, b0) -> (d :: r, b0) = (l', b) ->
       (length (filter (fun d => is_jump d && negb (is_dead d)) l') <= length (filter (fun d => is_jump d && negb (is_dead d)) (d :: l)))%nat
       /\ (b = true -> (length (filter (fun d => is_jump d && negb (is_dead d)) l') < length (filter (fun d => is_jump d && negb (is_dead d)) (d :: l)))%nat)).
    { intros r b0 m Er Ee. injection Ee as <- <-. destruct (IH _ _ _ _ Er) as [H1 H2].
      cbn [filter]. destruct (is_jump d && negb (is_dead d)); cbn [length]; split; intros; try specialize (H2 H); lia. }
    destruct mode as [t|].
    + destruct (opt_eqb t i || is_reachable_jumpdest dyn d) eqn:Ec.
      * destruct (mark_once dyn None (S i) l) as [r b0] eqn:Er. eapply Hk; eauto.
      * destruct (mark_once dyn (Some t) (S i) l) as [r b0] eqn:Er. injection E as <- <-.
        destruct (IH _ _ _ _ Er) as [H1 H2]. cbn [filter].
        replace (is_jump (set_dead d) && negb (is_dead (set_dead d))) with false
          by (symmetry; apply andb_false_r).
        destruct (is_jump d), (is_dead d); cbn [andb negb orb length]; split; intros; try specialize (H2 H); lia.
    + match type of E with (let '(_, _) := mark_once dyn ?m _ _ in _) = _ => destruct (mark_once dyn m (S i) l) as [r b0] eqn:Er end.
      eapply Hk; eauto.
Qed.

(** ** Reachable bits. *)
Definition clear_reach (d : idata) : idata := if is_jumpdest d then set_reach d false else d.

(** Two lists that differ only in reachable bits. *)
Definition upto_reach (d d' : idata) : Prop := d' = d \/ exists b, d' = set_reach d b.
Lemma upto_reach_trans a b c : upto_reach a b -> upto_reach b c -> upto_reach a c.
Proof.
  intros [-> | [x ->]] [-> | [y ->]]; unfold upto_reach; eauto. right. exists y. reflexivity.
Qed.
Lemma mark_reachable_upto d : upto_reach d (mark_reachable d).
Proof. unfold mark_reachable. destruct (is_jumpdest d); [right; eauto|left; reflexivity]. Qed.

Lemma set_reachable_spec r : forall ts l l', set_reachable r ts l = Some l' ->
  length l' = length l /\
  (forall k d', nth_error l' k = Some d' -> exists d, nth_error l k = Some d /\ upto_reach d d' /\
      (d_reach d = true -> d_reach d' = true)) /\
  (forall t t' d', In t ts -> root r t = Some t' -> nth_error l' t' = Some d' -> is_jumpdest d' = true -> d_reach d' = true).
Proof.
  induction ts as [|t ts IH]; intros l l' E; cbn [set_reachable] in E.
  - injection E as <-. split; [auto|]. split; [|intros ? ? ? []].
    intros k d' Hk. exists d'. split; [exact Hk|]. split; [left; reflexivity|auto].
  - destruct (root r t) as [t'|] eqn:Er; [|discriminate].
    destruct (IH _ _ E) as (L & P & J).
    assert (P' : forall k d', nth_error l' k = Some d' -> exists d, nth_error l k = Some d /\ upto_reach d d' /\
      (d_reach d = true -> d_reach d' = true) /\ (k = t' -> is_jumpdest d = true -> d_reach d' = true)).
    { intros k d' Hk. destruct (P k d' Hk) as (d & Hd & U & M). rewrite nth_upd_nth in Hd.
      destruct (Nat.eqb_spec k t') as [-> |Hne].
      - destruct (nth_error l t') as [d0|]; [|discriminate]. injection Hd as <-. exists d0.
        split; [reflexivity|]. split; [eapply upto_reach_trans; [apply mark_reachable_upto|exact U]|].
        split; intros H; [|intros H1]; apply M; unfold mark_reachable.
        + destruct (is_jumpdest d0); [reflexivity|exact H].
        + rewrite H1. reflexivity.
      - exists d. split; [exact Hd|]. split; [exact U|]. split; [exact M|]. intros ->; congruence. }
    split; [rewrite L; apply upd_nth_length|]. split.
    + intros k d' Hk. destruct (P' k d' Hk) as (d & Hd & U & M & _). eauto.
    + intros t0 t0' d' [<- |Hin] Hr Hn Hj; [|eapply J; eauto].
      assert (t0' = t') by congruence. subst t0'.
      destruct (P' _ _ Hn) as (d & Hd & U & M & K). apply K; [reflexivity|].
      destruct U as [-> | [b ->]]; exact Hj.
Qed.

Lemma jump_targets_in multi : forall l i k d t, nth_error l k = Some d ->
  is_static_jump d = true -> f_invalid (d_flags d) = false -> is_dead d = false ->
  (if f_multi (d_flags d) then exists ts, multi (i + k)%nat = Some ts /\ In t ts else t = d_target d) ->
  In t (jump_targets_from multi i l).
Proof.
  induction l as [|d0 l IH]; intros i k d t Hn Hs Hi Hd Ht; [destruct k; discriminate|].
  cbn [jump_targets_from]. apply in_or_app. destruct k as [|k].
  - injection Hn as ->. left. rewrite Hs, Hi, Hd. cbn. rewrite Nat.add_0_r in Ht.
    destruct (f_multi (d_flags d)); [destruct Ht as (ts & -> & Hin); exact Hin|left; symmetry; exact Ht].
  - right. apply (IH (S i) k d t Hn Hs Hi Hd). replace (S i + k)%nat with (i + S k)%nat by lia. exact Ht.
Qed.

(** A program whose dynamic-jump flag and reachable bits are up to date. *)
Record fresh (p : bc) : Prop := {
  fr_dyn : forall i d, nth_error (b_insts p) i = Some d -> unresolved d = true -> b_dyn p = true;
  fr_reach : forall i d t t' d', nth_error (b_insts p) i = Some d ->
    is_static_jump d = true -> f_invalid (d_flags d) = false -> is_dead d = false ->
    (if f_multi (d_flags d) then exists ts, b_multi p i = Some ts /\ In t ts else t = d_target d) ->
    root (b_redirects p) t = Some t' ->
    nth_error (b_insts p) t' = Some d' -> is_jumpdest d' = true -> d_reach d' = true
}.

Lemma upto_reach_props d d' : upto_reach d d' ->
  d_op d' = d_op d /\ d_flags d' = d_flags d /\ d_io d' = d_io d /\ d_target d' = d_target d /\ d_gas d' = d_gas d /\ d_data d' = d_data d.
Proof. intros [-> | [b ->]]; repeat split. Qed.

Lemma unresolved_upto d d' : upto_reach d d' -> unresolved d' = unresolved d.
Proof. intros [-> | [b ->]]; reflexivity. Qed.

Lemma recompute_reachable_shape p p' : recompute_reachable p = Some p' ->
  length (b_insts p') = length (b_insts p) /\
  (forall k d', nth_error (b_insts p') k = Some d' -> exists d, nth_error (b_insts p) k = Some d /\ upto_reach d d') /\
  b_multi p' = b_multi p /\ b_redirects p' = b_redirects p /\ b_dyn p' = b_dyn p /\ b_snaps p' = b_snaps p
  /\ b_blocks p' = b_blocks p /\ b_used p' = b_used p.
Proof.
  unfold recompute_reachable.
  destruct (set_reachable _ _ _) as [l|] eqn:E; [|discriminate]. intros H. injection H as <-.
  destruct (set_reachable_spec _ _ _ _ E) as (L & P & J). cbn.
  split; [rewrite L; apply map_length|]. split; [|repeat split; reflexivity].
  intros k d' Hk. destruct (P k d' Hk) as (d & Hd & U & M). rewrite nth_error_map in Hd.
  destruct (nth_error (b_insts p) k) as [d0|]; [|discriminate]. injection Hd as <-. exists d0. split; [reflexivity|].
  eapply upto_reach_trans; [|exact U]. destruct (is_jumpdest d0); [right; eauto|left; reflexivity].
Qed.

Lemma recompute_fresh p p' : recompute_reachable (recompute_dyn p) = Some p' -> fresh p'.
Proof.
  intros H. destruct (recompute_reachable_shape _ _ H) as (L & P & M & R & D & S & B & U). cbn in *.
  constructor.
  - intros i d Hn Hu. rewrite D. destruct (P i d Hn) as (d0 & H0 & U0). apply existsb_exists. exists d0.
    split; [eapply nth_error_In; eauto|]. rewrite <- (unresolved_upto _ _ U0). exact Hu.
  - intros i d t t' d' Hn Hs Hi Hd Ht Hr Hn' Hj.
    unfold recompute_reachable in H. cbn in H.
    destruct (set_reachable _ _ _) as [l|] eqn:E; [|discriminate]. injection H as <-. cbn in *.
    destruct (set_reachable_spec _ _ _ _ E) as (L' & P' & J).
    eapply J; [|exact Hr|exact Hn'|exact Hj].
    destruct (P i d Hn) as (d0 & H0 & U0). destruct (upto_reach_props _ _ U0) as (E1 & E2 & E3 & E4 & _).
    eapply (jump_targets_in _ _ 0 i d0 t H0).
    + unfold is_static_jump, is_jump in *. rewrite <- E1, <- E2. exact Hs.
    + rewrite <- E2. exact Hi.
    + unfold is_dead in *. rewrite <- E2. exact Hd.
    + rewrite <- E2, <- E4. cbn. exact Ht.
Qed.

(** ** Dead code is never reached. *)

(** [d'] is [d] or [d] marked dead. *)
Definition upto_dead (d d' : idata) : Prop := d' = d \/ d' = set_dead d.
Definition marked_of (l l' : list idata) : Prop :=
  length l' = length l /\
  forall k d', nth_error l' k = Some d' -> exists d, nth_error l k = Some d /\ upto_dead d d'.

Lemma upto_dead_same d d' : upto_dead d d' -> same d d'.
Proof. intros [-> | ->]; repeat split. Qed.
Lemma upto_reach_same d d' : upto_reach d d' -> same d d'.
Proof. intros [-> | [b ->]]; repeat split. Qed.
Lemma skel_of l l' : length l' = length l ->
  (forall k d', nth_error l' k = Some d' -> exists d, nth_error l k = Some d /\ same d d') -> skel l l'.
Proof.
  intros L H. split; [exact L|]. intros i d0 d H0 Hd. destruct (H i d Hd) as (d1 & H1 & S1). congruence.
Qed.

Lemma fresh_marked p l : fresh p -> marked_of (b_insts p) l -> fresh (with_insts p l).
Proof.
  intros [F1 F2] [L M]. constructor; cbn.
  - intros i d Hn Hu. destruct (M i d Hn) as (d0 & H0 & [-> | ->]); [eauto|].
    unfold unresolved in Hu. cbn in Hu. rewrite andb_false_r in Hu. discriminate.
  - intros i d t t' d' Hn Hs Hi Hd Ht Hr Hn' Hj.
    destruct (M i d Hn) as (d0 & H0 & [-> | ->]); [|discriminate].
    destruct (M t' d' Hn') as (d1 & H1 & E1).
    assert (Hj1 : is_jumpdest d1 = true) by (destruct E1 as [-> | ->]; exact Hj).
    pose proof (F2 i d0 t t' d1 H0 Hs Hi Hd Ht Hr H1 Hj1) as X. destruct E1 as [-> | ->]; exact X.
Qed.

(** Shape of the dead regions. *)
Definition dead_struct (l : list idata) : Prop :=
  (forall d, nth_error l 0 = Some d -> is_dead d = false) /\
  (forall k d d1, nth_error l k = Some d -> nth_error l (S k) = Some d1 -> is_dead d1 = true ->
     is_dead d = true \/ can_fall_through d = false).

Section Flow.
  Context {Y : Type} (prog : list idata) (const : nat -> Z) (dest : Z -> option nat)
          (sem : nat -> list Z -> Y -> option (list Z * Y)) (y0 : Y).
  Notation step := (evm_step prog const dest sem).
  Notation R := (reach prog const dest sem y0).

  Definition ends_op (op : Z) : bool :=
    (op =? OP_STOP) || (op =? OP_RETURN) || (op =? OP_REVERT) || (op =? OP_INVALID) || (op =? OP_SELFDESTRUCT).

  Lemma keep_some i (y : Y) r z : keep i y r = Some z -> exists st, r = Some st /\ z = (i, st, y).
  Proof. unfold keep. destruct r; [|discriminate]. intros H. injection H as <-. eauto. Qed.

  Lemma exec_cases i d st y j st' y' : evm_exec const dest sem i d st y = Some (j, st', y') ->
    f_disabled (d_flags d) || f_unknown (d_flags d) = false /\
    ((is_jump d = false /\ ends_op (d_op d) = false /\ j = S i)
     \/ (d_op d = OP_JUMP /\ y' = y /\ exists t, st = t :: st' /\ dest t = Some j)
     \/ (d_op d = OP_JUMPI /\ y' = y /\ exists t c, st = t :: c :: st' /\ (c = 0 /\ j = S i \/ c <> 0 /\ dest t = Some j))).
  Proof.
    unfold evm_exec. set (op := d_op d).
    destruct (f_disabled (d_flags d) || f_unknown (d_flags d)) eqn:Ef; [discriminate|]. intros H. split; [reflexivity|].
    assert (G : j = S i -> op <> 0x56 -> op <> 0x57 ->
                existsb (Z.eqb op) [0x00; 0xf3; 0xfd; 0xfe; 0xff] = false ->
                is_jump d = false /\ ends_op op = false /\ j = S i).
    { intros -> H1 H2 H3. unfold is_jump, ends_op. fold op. cbn [existsb] in H3.
      unfold OP_JUMP, OP_JUMPI, OP_STOP, OP_RETURN, OP_REVERT, OP_INVALID, OP_SELFDESTRUCT. lia. }
    destruct ((0x5f <=? op) && (op <=? 0x7f)) eqn:E1.
    { left. apply G; try (injection H as <- _ _); cbn [existsb]; lia. }
    destruct (op =? 0x50) eqn:E2.
    { left. destruct st; [discriminate|]. apply G; try (injection H as <- _ _); cbn [existsb]; lia. }
    destruct ((0x80 <=? op) && (op <=? 0x8f)) eqn:E3.
    { left. destruct (nth_error _ _); [|discriminate]. apply G; try (injection H as <- _ _); cbn [existsb]; lia. }
    destruct ((0x90 <=? op) && (op <=? 0x9f)) eqn:E4.
    { left. apply keep_some in H as (s & _ & H). apply G; try (injection H as <- _ _); cbn [existsb]; lia. }
    destruct (op =? 0xe6) eqn:E5.
    { left. destruct (eip_single _); [|discriminate]. destruct (nth_error _ _); [|discriminate].
      apply G; try (injection H as <- _ _); cbn [existsb]; lia. }
    destruct (op =? 0xe7) eqn:E6.
    { left. destruct (eip_single _); [|discriminate]. apply keep_some in H as (s & _ & H).
      apply G; try (injection H as <- _ _); cbn [existsb]; lia. }
    destruct (op =? 0xe8) eqn:E7.
    { left. destruct (eip_pair _) as [[? ?]|]; [|discriminate]. apply keep_some in H as (s & _ & H).
      apply G; try (injection H as <- _ _); cbn [existsb]; lia. }
    destruct (op =? 0x56) eqn:E8.
    { right; left. apply Z.eqb_eq in E8. destruct st as [|t s]; [discriminate|]. destruct (dest t) as [k|] eqn:Ed; [|discriminate].
      apply (f_equal (fun o => match o with Some x => x | None => (j, st', y') end)) in H.
      apply pair_equal_spec in H as [H <-]. apply pair_equal_spec in H as [<- <-].
      split; [exact E8|]. split; [reflexivity|]. exists t. auto. }
    destruct (op =? 0x57) eqn:E9.
    { right; right. apply Z.eqb_eq in E9. destruct st as [|t [|c s]]; [discriminate..|].
      split; [exact E9|].
      destruct (Z.eqb_spec c 0) as [Hc|Hc].
      - injection H as <- <- <-. split; [reflexivity|]. exists t, c. split; [reflexivity|]. left. auto.
      - destruct (dest t) as [k|] eqn:Ed; [|discriminate]. injection H as <- <- <-. split; [reflexivity|]. exists t, c.
        split; [reflexivity|]. right. auto. }
    destruct (existsb _ _) eqn:E10; [discriminate|].
    left. destruct (length st <? _)%nat; [discriminate|]. destruct (sem _ _ _) as [[o y1]|]; [|discriminate].
    apply G; try (injection H as <- _ _); auto; lia.
  Qed.

  Lemma step_cases i st y j st' y' d0 : nth_error prog i = Some d0 -> step i st y = Some (j, st', y') ->
    f_disabled (d_flags d0) || f_unknown (d_flags d0) = false /\ (length st' <= 1024)%nat /\
    evm_exec const dest sem i d0 st y = Some (j, st', y').
  Proof.
    intros Hn H. unfold evm_step in H. rewrite Hn in H.
    destruct (evm_exec const dest sem i d0 st y) as [[[j1 s1] y1]|] eqn:E; [|discriminate].
    destruct (Nat.leb_spec (length s1) 1024) as [Hl|]; [|discriminate]. injection H as <- <- <-.
    split; [apply (exec_cases _ _ _ _ _ _ _ E)|]. auto.
  Qed.

  (** What the flags of a jump claim about a state about to execute it. *)
  Definition jump_ok (m : option (list nat)) (i : nat) (d : idata) (st : list Z) : Prop :=
    forall t st1, st = t :: st1 ->
    let f := d_flags d in
    (f_static f = true -> (d_op d = OP_JUMPI -> exists c st2, st1 = c :: st2 /\ c <> 0) ->
       if f_invalid f then dest t = None
       else if f_multi f then exists ts, m = Some ts /\ forall j, dest t = Some j -> In j ts
       else dest t = Some (d_target d)) /\
    (d_op d = OP_JUMPI -> f_constcond f = true -> forall st2, st1 = 0 :: st2 ->
       f_static f = true /\ f_invalid f = false /\ f_multi f = false /\ d_target d = S i).

  Definition flags_ok (p : bc) : Prop :=
    forall i st y d, R i st y -> nth_error (b_insts p) i = Some d -> is_jump d = true -> jump_ok (b_multi p i) i d st.
  Definition live_ok (p : bc) : Prop :=
    forall i st y d, R i st y -> nth_error (b_insts p) i = Some d -> is_dead d = false.

  Hypothesis DEST : forall v j, dest v = Some j -> exists d, nth_error prog j = Some d /\ d_op d = 0x5b.

  (** Where control goes from a reached live instruction. *)
  Lemma flow p i st y j st' y' d :
    skel prog (b_insts p) -> b_redirects p = [] -> fresh p -> flags_ok p ->
    R i st y -> nth_error (b_insts p) i = Some d -> is_dead d = false ->
    step i st y = Some (j, st', y') ->
    (j = S i /\ (can_fall_through d = true \/
                 is_static_jump d = true /\ f_invalid (d_flags d) = false /\ f_multi (d_flags d) = false /\ d_target d = S i))
    \/ (exists dj v, nth_error (b_insts p) j = Some dj /\ is_jumpdest dj = true /\
          is_reachable_jumpdest (b_dyn p) dj = true /\ is_jump d = true /\ hd_error st = Some v /\ dest v = Some j /\
          (d_op d = OP_JUMPI -> exists t c s, st = t :: c :: s /\ c <> 0) /\
          (f_static (d_flags d) = true -> f_invalid (d_flags d) = false /\
             if f_multi (d_flags d) then exists ts, b_multi p i = Some ts /\ In j ts else d_target d = j)).
  Proof.
    intros SK RD FR FL HR Hn Hd Hs.
    destruct SK as [L SK].
    destruct (nth_some prog i) as [d0 H0]; [apply nth_lt in Hn; congruence|].
    pose proof (SK i d0 d H0 Hn) as (So & Sio & Sd & Su & _).
    destruct (step_cases _ _ _ _ _ _ _ H0 Hs) as (Hf & _ & He).
    destruct (exec_cases _ _ _ _ _ _ _ He) as [_ [(Hj & Ho & Hnext)|[(Ho & _ & t & Hst & Ht)|(Ho & _ & t & c & Hst & Hc)]]].
    - left. split; [exact Hnext|]. left. unfold can_fall_through, is_diverging, has_const_jumpi_condition.
      unfold is_jump in Hj. rewrite <- So in Hj, Ho. unfold ends_op in Ho. rewrite Sd, Su.
      apply orb_false_iff in Hf as [-> ->]. apply orb_false_iff in Hj as [-> ->].
      cbn. rewrite Ho. reflexivity.
    - right.
      assert (Hjmp : is_jump d = true) by (unfold is_jump; rewrite So, Ho; reflexivity).
      destruct (DEST _ _ Ht) as (dj0 & Hj0 & Oj0).
      destruct (nth_some (b_insts p) j) as [dj Hdj]; [apply nth_lt in Hj0; congruence|].
      pose proof (SK j dj0 dj Hj0 Hdj) as (Soj & _).
      assert (Jd : is_jumpdest dj = true) by (unfold is_jumpdest; rewrite Soj, Oj0; reflexivity).
      exists dj, t. split; [exact Hdj|]. split; [exact Jd|].
      assert (C : f_static (d_flags d) = true -> f_invalid (d_flags d) = false /\
               (if f_multi (d_flags d) then exists ts, b_multi p i = Some ts /\ In j ts else d_target d = j)).
      { intros Fs. destruct (FL i st y d HR Hn Hjmp t st' Hst) as [A _].
        specialize (A Fs). destruct (f_invalid (d_flags d)).
        - rewrite A in Ht; [discriminate|]. intros X. rewrite So, Ho in X. discriminate.
        - split; [reflexivity|]. destruct (f_multi (d_flags d)).
          + destruct A as (ts & M & I); [intros X; rewrite So, Ho in X; discriminate|]. exists ts. auto.
          + rewrite A in Ht; [congruence|]. intros X. rewrite So, Ho in X. discriminate. }
      split; [|split; [exact Hjmp|split; [rewrite Hst; reflexivity|split; [exact Ht|split; [intros X; rewrite So, Ho in X; discriminate|exact C]]]]].
      unfold is_reachable_jumpdest. rewrite Jd. cbn. destruct (f_static (d_flags d)) eqn:Fs.
      + destruct (C eq_refl) as [Ci Cm]. apply orb_true_iff. right.
        eapply (fr_reach p FR i d j j dj Hn); auto.
        * unfold is_static_jump. rewrite Hjmp, Fs. reflexivity.
        * destruct (f_multi (d_flags d)); [exact Cm|auto].
        * rewrite RD. reflexivity.
      + apply orb_true_iff. left. eapply (fr_dyn p FR i d Hn). unfold unresolved. rewrite Hjmp, Fs, Hd. reflexivity.
    - assert (Hjmp : is_jump d = true) by (unfold is_jump; rewrite So, Ho; apply orb_true_r).
      destruct Hc as [[Hc Hnext]|[Hc Ht]].
      + left. split; [exact Hnext|].
        destruct (f_constcond (d_flags d)) eqn:Fc.
        * right. destruct (FL i st y d HR Hn Hjmp t (c :: st') Hst) as [_ B].
          destruct (B (eq_trans So Ho) Fc st') as (B1 & B2 & B3 & B4); [congruence|].
          repeat split; auto. unfold is_static_jump. rewrite Hjmp, B1. reflexivity.
        * left. unfold can_fall_through, is_diverging, has_const_jumpi_condition.
          rewrite So, Ho, Sd, Su, Fc. apply orb_false_iff in Hf as [-> ->]. reflexivity.
      + right.
        destruct (DEST _ _ Ht) as (dj0 & Hj0 & Oj0).
        destruct (nth_some (b_insts p) j) as [dj Hdj]; [apply nth_lt in Hj0; congruence|].
        pose proof (SK j dj0 dj Hj0 Hdj) as (Soj & _).
        assert (Jd : is_jumpdest dj = true) by (unfold is_jumpdest; rewrite Soj, Oj0; reflexivity).
        exists dj, t. split; [exact Hdj|]. split; [exact Jd|].
        assert (C : f_static (d_flags d) = true -> f_invalid (d_flags d) = false /\
                 (if f_multi (d_flags d) then exists ts, b_multi p i = Some ts /\ In j ts else d_target d = j)).
        { intros Fs. destruct (FL i st y d HR Hn Hjmp t (c :: st') Hst) as [A _].
          assert (Hex : d_op d = OP_JUMPI -> exists c0 st2, c :: st' = c0 :: st2 /\ c0 <> 0) by eauto.
          specialize (A Fs Hex). destruct (f_invalid (d_flags d)).
          - rewrite A in Ht; discriminate.
          - split; [reflexivity|]. destruct (f_multi (d_flags d)).
            + destruct A as (ts & M & I). exists ts. auto.
            + rewrite A in Ht. congruence. }
        split; [|split; [exact Hjmp|split; [rewrite Hst; reflexivity|split; [exact Ht|split; [intros _; exists t, c, st'; auto|exact C]]]]].
        unfold is_reachable_jumpdest. rewrite Jd. cbn. destruct (f_static (d_flags d)) eqn:Fs.
        * destruct (C eq_refl) as [Ci Cm]. apply orb_true_iff. right.
          eapply (fr_reach p FR i d j j dj Hn); auto.
          -- unfold is_static_jump. rewrite Hjmp, Fs. reflexivity.
          -- destruct (f_multi (d_flags d)); [exact Cm|auto].
          -- rewrite RD. reflexivity.
        * apply orb_true_iff. left. eapply (fr_dyn p FR i d Hn). unfold unresolved. rewrite Hjmp, Fs, Hd. reflexivity.
  Qed.

  Lemma mark_once_live p l b :
    skel prog (b_insts p) -> b_redirects p = [] -> fresh p -> flags_ok p -> live_ok p ->
    mark_once (b_dyn p) None 0 (b_insts p) = (l, b) -> live_ok (with_insts p l).
  Proof.
    intros SK RD FR FL LV E.
    destruct (mark_once_spec _ _ _ _ _ _ E) as (L & P & J & F & T & D). cbn.
    assert (G : forall i st y, R i st y -> forall d, nth_error l i = Some d -> is_dead d = false).
    { intros i st y HR. induction HR as [|i st y j st' y' HR IH Hs]; intros d Hn.
      - rewrite (F eq_refl) in Hn. eapply LV; [apply reach_start|exact Hn].
      - destruct (nth_some l i) as [di Hi].
        { unfold evm_step in Hs. destruct (nth_error prog i) eqn:E0; [|discriminate].
          apply nth_lt in E0. destruct SK as [LS _]. congruence. }
        pose proof (IH di Hi) as Hdi.
        destruct (P i di Hi) as (d1 & H1 & Hor). destruct Hor as [-> | ->]; [|discriminate].
        pose proof (reach_step _ _ _ _ _ _ _ _ _ _ _ HR Hs) as HR'.
        destruct (flow p i st y j st' y' d1 SK RD FR FL HR H1 Hdi Hs) as [[-> Hf]|(dj & v & Hdj & Hjd & Hrj & _)].
        + rewrite (T i d1 Hi Hdi) in Hn; [eapply LV; eauto|].
          destruct Hf as [Hf|(Hf1 & _ & _ & Hf2)]; [left; exact Hf|right].
          unfold static_target_after. rewrite Hf1, Hf2. cbn [plus andb].
          replace (i <? S i)%nat with true by (symmetry; apply Nat.ltb_lt; lia). apply Nat.eqb_refl.
        + rewrite (J j dj Hdj Hrj) in Hn. injection Hn as <-. eapply LV; eauto. }
    intros i st y d HR Hn. eapply G; eauto.
  Qed.

  Lemma mark_once_marked dyn l l' b : mark_once dyn None 0 l = (l', b) -> marked_of l l'.
  Proof.
    intros E. destruct (mark_once_spec _ _ _ _ _ _ E) as (L & P & _). split; [exact L|exact P].
  Qed.

  Lemma marked_skel l l' : marked_of l l' -> skel l l'.
  Proof.
    intros [L M]. apply skel_of; [exact L|]. intros k d' Hk. destruct (M k d' Hk) as (d & Hd & U).
    exists d. split; [exact Hd|]. apply upto_dead_same, U.
  Qed.

  Lemma jump_ok_ext m i d d' st : d_op d' = d_op d -> d_target d' = d_target d ->
    f_static (d_flags d') = f_static (d_flags d) -> f_invalid (d_flags d') = f_invalid (d_flags d) ->
    f_multi (d_flags d') = f_multi (d_flags d) -> f_constcond (d_flags d') = f_constcond (d_flags d) ->
    jump_ok m i d st -> jump_ok m i d' st.
  Proof. unfold jump_ok. intros -> -> -> -> -> -> H. exact H. Qed.

  Lemma flags_ok_marked p l : flags_ok p -> marked_of (b_insts p) l -> flags_ok (with_insts p l).
  Proof.
    intros FL [L M] i st y d HR Hn Hj. cbn in *. destruct (M i d Hn) as (d0 & H0 & U).
    assert (Hj0 : is_jump d0 = true) by (destruct U as [-> | ->]; exact Hj).
    eapply jump_ok_ext; [..|exact (FL i st y d0 HR H0 Hj0)]; destruct U as [-> | ->]; reflexivity.
  Qed.

  (** Recorded targets are JUMPDESTs or the next instruction. *)
  Definition is_dest (t : nat) : Prop := exists d, nth_error prog t = Some d /\ d_op d = 0x5b.
  Definition targets_ok (p : bc) : Prop :=
    forall i d, nth_error (b_insts p) i = Some d ->
      (f_multi (d_flags d) = true -> is_static_jump d = true /\ f_invalid (d_flags d) = false /\ b_multi p i <> None) /\
      (is_static_jump d = true -> f_invalid (d_flags d) = false ->
       if f_multi (d_flags d) then forall ts t, b_multi p i = Some ts -> In t ts -> is_dest t
       else d_target d = S i \/ is_dest (d_target d)) /\
      (f_invalid (d_flags d) = true -> f_static (d_flags d) = true).

  (** All invariants about a program state before deduplication. *)
  Record pre (p : bc) : Prop := {
    pr_skel : skel prog (b_insts p);
    pr_redir : b_redirects p = [];
    pr_flags : flags_ok p;
    pr_live : live_ok p;
    pr_dead : dead_struct (b_insts p);
    pr_targets : targets_ok p
  }.

  Lemma dead_struct_marked dyn l l' b : dead_struct l -> mark_once dyn None 0 l = (l', b) -> dead_struct l'.
  Proof.
    intros [D0 DS] E. destruct (mark_once_spec _ _ _ _ _ _ E) as (L & P & J & F & T & D). split.
    - intros d Hn. rewrite (F eq_refl) in Hn. auto.
    - intros k d d1 H0 H1 Hd.
      destruct (P _ _ H1) as (e1 & He1 & U1). destruct (P _ _ H0) as (e0 & He0 & U0).
      destruct U1 as [-> |U1].
      + destruct (DS k e0 e1 He0 He1 Hd) as [X|X]; destruct U0 as [-> | ->]; auto.
      + destruct (is_dead e1) eqn:E1.
        * destruct (DS k e0 e1 He0 He1 E1) as [X|X]; destruct U0 as [-> | ->]; auto.
        * apply (D k d d1 H0 H1). rewrite He1. intros X. injection X as ->. congruence.
  Qed.

  Lemma recompute_pre0 p p' : recompute_reachable p = Some p' -> pre p -> pre p'.
  Proof.
    intros H [SK RD FL LV DS TG].
    destruct (recompute_reachable_shape _ _ H) as (L & P & M & R0 & D & S & B & U). cbn in *.
    assert (PP : forall k d', nth_error (b_insts p') k = Some d' -> exists d, nth_error (b_insts p) k = Some d /\
       d_op d' = d_op d /\ d_flags d' = d_flags d /\ d_target d' = d_target d).
    { intros k d' Hk. destruct (P k d' Hk) as (d & Hd & Ud). exists d. split; [exact Hd|].
      destruct (upto_reach_props _ _ Ud) as (? & ? & ? & ? & _). auto. }
    constructor.
    - eapply skel_trans; [exact SK|]. apply skel_of; [exact L|]. intros k d' Hk.
      destruct (P k d' Hk) as (d & Hd & Ud). exists d. split; [exact Hd|apply upto_reach_same, Ud].
    - congruence.
    - intros i st y d' HR Hn Hj. rewrite M. destruct (PP i d' Hn) as (d & Hd & E1 & E2 & E3).
      assert (Hj0 : is_jump d = true) by (unfold is_jump in *; rewrite <- E1; exact Hj).
      eapply jump_ok_ext; [..|exact (FL i st y d HR Hd Hj0)]; congruence.
    - intros i st y d' HR Hn. destruct (PP i d' Hn) as (d & Hd & E1 & E2 & E3).
      unfold is_dead. rewrite E2. exact (LV i st y d HR Hd).
    - destruct DS as [D0 DS]. split.
      + intros d' Hn. destruct (PP _ d' Hn) as (d & Hd & E1 & E2 & E3). unfold is_dead. rewrite E2. exact (D0 d Hd).
      + intros k d d1 H0 H1 Hd1. destruct (PP _ _ H0) as (e & He & E1 & E2 & E3).
        destruct (PP _ _ H1) as (e1 & He1 & F1 & F2 & F3).
        assert (X : is_dead e1 = true) by (unfold is_dead in *; rewrite <- F2; exact Hd1).
        destruct (DS k e e1 He He1 X) as [Z0|Z0]; [left; unfold is_dead in *; rewrite E2; exact Z0|right].
        unfold can_fall_through, is_diverging, has_const_jumpi_condition in *. rewrite E1, E2. exact Z0.
    - intros i d' Hn. destruct (PP i d' Hn) as (d & Hd & E1 & E2 & E3). rewrite M, E2, E3.
      assert (X : is_static_jump d' = is_static_jump d) by (unfold is_static_jump, is_jump in *; rewrite E1, E2; reflexivity).
      rewrite X. apply (TG i d Hd).
  Qed.
  Lemma recompute_pre p p' : recompute_reachable (recompute_dyn p) = Some p' -> pre p -> pre p'.
  Proof. intros H [A B C D E F]. apply (recompute_pre0 _ _ H). constructor; auto. Qed.

  Lemma mark_pre p l b : pre p -> fresh p -> mark_once (b_dyn p) None 0 (b_insts p) = (l, b) -> pre (with_insts p l).
  Proof.
    intros PR FR E. pose proof PR as [SK RD FL LV DS TG]. pose proof (mark_once_marked _ _ _ _ E) as MO. constructor; cbn.
    - eapply skel_trans; [exact SK|apply marked_skel, MO].
    - exact RD.
    - apply flags_ok_marked; auto.
    - eapply mark_once_live; eauto.
    - eapply dead_struct_marked; eauto.
    - intros i d' Hn. destruct MO as [_ MO]. destruct (MO i d' Hn) as (d & Hd & U).
      assert (X := TG i d Hd). destruct U as [-> | ->]; apply X; assumption.
  Qed.

  Lemma mark_dead_code_pre fuel : forall p p', pre p -> fresh p -> mark_dead_code fuel p = Some p' -> pre p' /\ fresh p'.
  Proof.
    induction fuel as [|f IH]; intros p p' PR FR E; cbn [mark_dead_code] in E;
      destruct (mark_once (b_dyn p) None 0 (b_insts p)) as [l b] eqn:Em;
      pose proof (mark_pre _ _ _ PR FR Em) as PR1; pose proof (fresh_marked _ _ FR (mark_once_marked _ _ _ _ Em)) as FR1.
    - destruct b; [discriminate|]. injection E as <-. auto.
    - destruct b; [|injection E as <-; auto].
      destruct (recompute_reachable _) as [p2|] eqn:Er; [|discriminate].
      eapply (IH p2 p'); [eapply recompute_pre; eauto|eapply recompute_fresh; eauto|exact E].
  Qed.

  (** [mark_dead_code] never runs out of fuel, and without redirects nothing fails. *)
  Lemma set_reachable_total ts : forall l, set_reachable [] ts l <> None.
  Proof. induction ts as [|t ts IH]; intros l; cbn; [discriminate|apply IH]. Qed.
  Lemma recompute_total p : b_redirects p = [] -> recompute_reachable p <> None.
  Proof.
    intros H. unfold recompute_reachable. rewrite H.
    destruct (set_reachable _ _ _) eqn:E; [discriminate|]. exfalso. eapply set_reachable_total; eauto.
  Qed.
  Lemma live_jumps_upto l l' : length l' = length l ->
    (forall k d', nth_error l' k = Some d' -> exists d, nth_error l k = Some d /\ upto_reach d d') ->
    live_jumps l' = live_jumps l.
  Proof.
    revert l'. induction l as [|d l IH]; intros [|d' l'] L P; try discriminate; [reflexivity|].
    destruct (P 0%nat d' eq_refl) as (d0 & E & U). injection E as ->.
    unfold live_jumps in *. cbn [filter].
    assert (X : is_jump d' && negb (is_dead d') = is_jump d0 && negb (is_dead d0)) by (destruct U as [-> | [b ->]]; reflexivity).
    rewrite X.
    specialize (IH l' ltac:(cbn in L; congruence) (fun k d'' Hk => P (S k) d'' Hk)).
    destruct (is_jump d0 && negb (is_dead d0)); cbn [length]; congruence.
  Qed.
  Lemma mark_dead_code_total fuel : forall p, b_redirects p = [] -> (live_jumps (b_insts p) <= fuel)%nat ->
    mark_dead_code fuel p <> None.
  Proof.
    induction fuel as [|f IH]; intros p RD Hl; cbn [mark_dead_code];
      destruct (mark_once (b_dyn p) None 0 (b_insts p)) as [l b] eqn:Em;
      destruct (mark_once_jumps _ _ _ _ _ _ Em) as [H1 H2]; destruct b; try discriminate.
    - specialize (H2 eq_refl). lia.
    - specialize (H2 eq_refl).
      destruct (recompute_reachable _) as [p2|] eqn:Er; [|exfalso; revert Er; apply recompute_total; exact RD].
      destruct (recompute_reachable_shape _ _ Er) as (L & P & M & R0 & D & S & B & U). cbn in *.
      apply IH; [congruence|]. rewrite (live_jumps_upto _ _ L P). lia.
  Qed.
  Lemma live_jumps_le l : (live_jumps l <= length l)%nat.
  Proof.
    unfold live_jumps. induction l as [|d l IH]; [auto|]. cbn [filter].
    destruct (is_jump d && negb (is_dead d)); cbn [length]; lia.
  Qed.
End Flow.

(** ** The partition into basic blocks. *)
Fixpoint wf_ranges (rs : list (nat * nat)) (lo hi : nat) : Prop :=
  match rs with
  | [] => True
  | (s, e) :: rs' => (lo <= s)%nat /\ (s < e)%nat /\ (e <= hi)%nat /\ wf_ranges rs' e hi
  end.

Lemma skipn_tail {A} (d : A) l : forall i all, skipn i all = d :: l -> skipn (S i) all = l.
Proof.
  intros i. induction i as [|i IH]; intros all H; destruct all as [|x all]; try discriminate.
  - injection H as -> ->. reflexivity.
  - apply IH. exact H.
Qed.

Section Partition.
  Variables (dyn : bool) (all : list idata).

  (** Instructions [s .. e-1] are live and control can only run through them from [s] to [e-1]. *)
  Definition chain (r : nat * nat) : Prop :=
    forall k, (fst r <= k < snd r)%nat -> exists d, nth_error all k = Some d /\ is_dead d = false /\
      ((S k < snd r)%nat -> is_branching d = false /\ is_leader dyn all (S k) = false).

  Definition cur_ok (i : nat) (cur : option (nat * nat)) (pending : bool) : Prop :=
    match cur with
    | Some (s, e) => (s < e <= i)%nat /\ (pending = false -> e = i) /\ (e < i -> pending = true)%nat /\ chain (s, e)
    | None => i = 0%nat
    end.
  Definition lo_of (i : nat) (cur : option (nat * nat)) : nat := match cur with Some (s, _) => s | None => i end.

  Hypothesis DS : dead_struct all.

  Lemma no_fall_branching d : can_fall_through d = false -> is_branching d = true.
  Proof.
    unfold can_fall_through, is_branching, is_jump, has_const_jumpi_condition. intros H.
    destruct (is_diverging d); [apply orb_true_r|]. destruct (d_op d =? OP_JUMP); [reflexivity|].
    destruct (d_op d =? OP_JUMPI); [reflexivity|discriminate].
  Qed.

  Lemma build_spec : forall l i cur pending,
    skipn i all = l -> (i <= length all)%nat -> cur_ok i cur pending ->
    (cur <> None -> forall k d, S k = i -> nth_error all k = Some d -> is_dead d = true -> pending = true) ->
    let rs := build dyn all i l cur pending in
    wf_ranges rs (lo_of i cur) (length all) /\
    (forall r, In r rs -> chain r) /\
    (forall j d, nth_error all j = Some d -> is_dead d = false ->
       (i <= j)%nat \/ (exists s e, cur = Some (s, e) /\ (s <= j < e)%nat) -> exists r, In r rs /\ in_range j r = true) /\
    (forall j d, nth_error all j = Some d -> is_dead d = false -> (i <= j)%nat -> is_leader dyn all j = true ->
       exists r, In r rs /\ fst r = j) /\
    (forall s e, cur = Some (s, e) -> exists e' rs', rs = (s, e') :: rs' /\ (e <= e')%nat) /\
    (cur = None -> forall d, nth_error all 0 = Some d -> exists e' rs', rs = (0%nat, e') :: rs').
  Proof.
    induction l as [|d l IH]; intros i cur pending Hl Hi HC HP; cbn [build].
    - assert (Hlen : (length all <= i)%nat).
      { assert (H : length (skipn i all) = 0%nat) by (rewrite Hl; reflexivity). rewrite skipn_length in H. lia. }
      destruct cur as [[s e]|]; cbn.
      + destruct HC as (H1 & H2 & H3 & H4). repeat split; try lia.
        * intros r [<- |[]]. exact H4.
        * intros j dj Hj Hd [Hle|(s0 & e0 & E & Hin)]; [apply nth_lt in Hj; lia|]. injection E as <- <-.
          exists (s, e). split; [left; reflexivity|]. unfold in_range. cbn [fst snd]. lia.
        * intros j dj Hj Hd Hle. apply nth_lt in Hj. lia.
        * intros s0 e0 E. injection E as <- <-. exists e, []. auto.
        * discriminate.
      + cbn in HC. subst i. assert (all = []) by (destruct all; [reflexivity|cbn in Hlen; lia]).
        repeat split; auto.
        * intros r [].
        * intros j dj Hj. rewrite H in Hj. destruct j; discriminate.
        * intros j dj Hj. rewrite H in Hj. destruct j; discriminate.
        * discriminate.
        * intros _ dj Hj. rewrite H in Hj. discriminate.
    - assert (Hn : nth_error all i = Some d).
      { rewrite <- (firstn_skipn i all). rewrite nth_error_app2; rewrite firstn_length; [|lia].
        rewrite Hl. replace (i - Nat.min i (length all))%nat with 0%nat by lia. reflexivity. }
      assert (Hl' : skipn (S i) all = l).
      { apply skipn_tail with d. exact Hl. }
      assert (Hi' : (S i <= length all)%nat) by (apply nth_lt in Hn; lia).
      destruct (is_dead d) eqn:Ed.
      + destruct cur as [[s e]|].
        2:{ exfalso. cbn in HC. subst i. rewrite (proj1 DS d Hn) in Ed. discriminate. }
        destruct HC as (H1 & H2 & H3 & H4).
        assert (Hp : pending || is_leader dyn all i = true).
        { destruct pending; [reflexivity|]. cbn. specialize (H2 eq_refl). subst e.
          destruct i as [|k]; [lia|].
          destruct (H4 k) as (dk & Hk & Lk & _); [cbn; lia|].
          destruct (proj2 DS k dk d Hk Hn Ed) as [X|X]; [congruence|].
          unfold is_leader, leader_before. rewrite Hk, Lk, (no_fall_branching _ X). reflexivity. }
        rewrite Hp.
        destruct (IH (S i) (Some (s, e)) true Hl' Hi') as (W & C & Cov & Lead & Fst & _).
        { cbn. repeat split; auto; lia. }
        { auto. }
        split; [exact W|]. split; [exact C|]. split; [|split; [|split; [exact Fst|discriminate]]].
        * intros j dj Hj Hdj Hor. apply (Cov j dj Hj Hdj). destruct Hor as [Hle|Hor]; [|right; exact Hor].
          left. assert (j <> i) by congruence. lia.
        * intros j dj Hj Hdj Hle Hlead. apply (Lead j dj Hj Hdj); auto. assert (j <> i) by congruence. lia.
      + destruct cur as [[s e]|].
        * destruct HC as (H1 & H2 & H3 & H4).
          destruct (is_leader dyn all i || pending) eqn:Elp.
          -- destruct (IH (S i) (Some (i, S i)) false Hl' Hi') as (W & C & Cov & Lead & Fst & _).
             { cbn. repeat split; auto; try lia. intros k Hk. assert (k = i) by (cbn in Hk; lia). subst k.
               exists d. split; [assumption|split; [assumption|intros X; cbn in X; lia]]. }
             { intros _ k dk Ek Hk Hdk. injection Ek as ->. congruence. }
             cbn [lo_of] in W.
             split; [cbn; repeat split; try lia|].
             { destruct (Fst _ _ eq_refl) as (e' & rs' & Er & He'). rewrite Er in *. cbn in W |- *. destruct W as (W1 & W2 & W3 & W4). repeat split; auto; lia. }
             split; [intros r [<- |Hr]; [exact H4|apply C, Hr]|].
             split; [|split; [|split; [|discriminate]]].
             ++ intros j dj Hj Hdj [Hle|(s0 & e0 & E & Hin)].
                ** destruct (Cov j dj Hj Hdj) as (r & Hr & Hir).
                   { destruct (Nat.eq_dec j i) as [-> |]; [right; exists i, (S i); split; [reflexivity|lia]|left; lia]. }
                   exists r. split; [right; exact Hr|exact Hir].
                ** injection E as <- <-. exists (s, e). split; [left; reflexivity|]. unfold in_range; cbn [fst snd]; lia.
             ++ intros j dj Hj Hdj Hle Hlead. destruct (Nat.eq_dec j i) as [-> |Hne].
                ** destruct (Fst _ _ eq_refl) as (e' & rs' & -> & _). exists (i, e'). split; [right; left; reflexivity|reflexivity].
                ** destruct (Lead j dj Hj Hdj) as (r & Hr & Hfr); [lia|exact Hlead|]. exists r. split; [right; exact Hr|exact Hfr].
             ++ intros s0 e0 E. injection E as <- <-. eexists; eexists; split; [reflexivity|]. lia.
          -- apply orb_false_iff in Elp as [El Ep]. specialize (H2 Ep). subst e.
             destruct (IH (S i) (Some (s, S i)) false Hl' Hi') as (W & C & Cov & Lead & Fst & _).
             { cbn. repeat split; auto; try lia. intros k Hk. cbn [fst snd] in Hk.
               destruct (Nat.eq_dec k i) as [-> |Hne].
               - exists d. split; [assumption|split; [assumption|intros X; cbn in X; lia]].
               - destruct (H4 k) as (dk & Hk1 & Hk2 & Hk3); [cbn; lia|]. exists dk. split; [exact Hk1|]. split; [exact Hk2|].
                 intros _. destruct (Nat.eq_dec (S k) i) as [Hki|Hki]; [|apply Hk3; cbn; lia].
                 subst i. split; [|exact El]. unfold is_leader, leader_before in El. rewrite Hk1, Hk2 in El. cbn in El.
                 destruct (is_branching dk); [discriminate|reflexivity]. }
             { intros _ k dk Ek Hk Hdk. injection Ek as ->. congruence. }
             cbn [lo_of] in W. split; [exact W|]. split; [exact C|].
             split; [|split; [|split; [|discriminate]]].
             ++ intros j dj Hj Hdj Hor. apply (Cov j dj Hj Hdj). destruct Hor as [Hle|(s0 & e0 & E & Hin)].
                ** destruct (Nat.eq_dec j i) as [-> |]; [right; exists s, (S i); split; [reflexivity|lia]|left; lia].
                ** injection E as <- <-. right. exists s, (S i). split; [reflexivity|lia].
             ++ intros j dj Hj Hdj Hle Hlead. apply (Lead j dj Hj Hdj); auto. assert (j <> i) by congruence. lia.
             ++ intros s0 e0 E. injection E as <- <-. destruct (Fst _ _ eq_refl) as (e' & rs' & -> & He').
                exists e', rs'. split; [reflexivity|lia].
        * cbn in HC. subst i.
          destruct (IH 1%nat (Some (0, 1)%nat) false Hl' Hi') as (W & C & Cov & Lead & Fst & _).
          { cbn. repeat split; auto; try lia. intros k Hk. assert (k = 0%nat) by (cbn in Hk; lia). subst k.
            exists d. split; [assumption|split; [assumption|intros X; cbn in X; lia]]. }
          { intros _ k dk Ek Hk Hdk. injection Ek as ->. congruence. }
          split; [exact W|]. split; [exact C|]. split; [|split; [|split; [discriminate|]]].
          -- intros j dj Hj Hdj _. apply (Cov j dj Hj Hdj). destruct (Nat.eq_dec j 0) as [-> |]; [|left; lia].
             right. exists 0%nat, 1%nat. split; [reflexivity|lia].
          -- intros j dj Hj Hdj Hle Hlead. destruct (Nat.eq_dec j 0) as [-> |Hne].
             ++ destruct (Fst _ _ eq_refl) as (e' & rs' & -> & _). exists (0%nat, e'). split; [left; reflexivity|reflexivity].
             ++ apply (Lead j dj Hj Hdj); auto. lia.
          -- intros _ d' Hd'. destruct (Fst _ _ eq_refl) as (e' & rs' & -> & _). eauto.
  Qed.

  Lemma ranges_spec : let rs := ranges dyn all in
    wf_ranges rs 0 (length all) /\
    (forall r, In r rs -> chain r) /\
    (forall j d, nth_error all j = Some d -> is_dead d = false -> exists r, In r rs /\ in_range j r = true) /\
    (forall j d, nth_error all j = Some d -> is_dead d = false -> is_leader dyn all j = true ->
       exists r, In r rs /\ fst r = j) /\
    (forall d, nth_error all 0 = Some d -> exists e' rs', rs = (0%nat, e') :: rs').
  Proof.
    destruct (build_spec all 0 None false eq_refl) as (W & C & Cov & Lead & _ & Z0); [lia|reflexivity|congruence|].
    unfold ranges. split; [exact W|]. split; [exact C|]. split; [|split; [|exact (Z0 eq_refl)]].
    - intros j d Hj Hd. apply (Cov j d Hj Hd). left. lia.
    - intros j d Hj Hd. apply (Lead j d Hj Hd). lia.
  Qed.
End Partition.

Lemma wf_ranges_nth rs : forall lo hi b r, wf_ranges rs lo hi -> nth_error rs b = Some r ->
  (lo <= fst r < snd r)%nat /\ (snd r <= hi)%nat.
Proof.
  induction rs as [|[s e] rs IH]; intros lo hi b r W H; [destruct b; discriminate|].
  cbn in W. destruct W as (W1 & W2 & W3 & W4). destruct b as [|b].
  - injection H as <-. cbn. lia.
  - destruct (IH _ _ _ _ W4 H). lia.
Qed.
Lemma find_range_nth rs : forall lo hi b b0 r i, wf_ranges rs lo hi -> nth_error rs b = Some r -> in_range i r = true ->
  find_range rs b0 i = Some (b0 + b)%nat.
Proof.
  induction rs as [|[s e] rs IH]; intros lo hi b b0 r i W H Hi; [destruct b; discriminate|].
  cbn in W. destruct W as (W1 & W2 & W3 & W4). cbn [find_range]. destruct b as [|b].
  - injection H as <-. rewrite Hi. f_equal. lia.
  - destruct (wf_ranges_nth _ _ _ _ _ W4 H). replace (in_range i (s, e)) with false.
    + rewrite (IH _ _ _ (S b0) _ _ W4 H Hi). f_equal. lia.
    + unfold in_range in *. cbn [fst snd] in *. lia.
Qed.
Lemma find_range_some rs : forall b0 i b, find_range rs b0 i = Some b ->
  exists k r, b = (b0 + k)%nat /\ nth_error rs k = Some r /\ in_range i r = true.
Proof.
  induction rs as [|r rs IH]; intros b0 i b H; [discriminate|]. cbn [find_range] in H.
  destruct (in_range i r) eqn:E.
  - injection H as <-. exists 0%nat, r. repeat split; auto.
  - destruct (IH _ _ _ H) as (k & r' & -> & H1 & H2). exists (S k), r'. repeat split; auto. lia.
Qed.

(** ** The CFG after [refresh_cfg]. *)
Definition blocks_of (p : bc) : list blk :=
  let rs := ranges (b_dyn p) (b_insts p) in
  map (fun r => mkBlk (fst r) (snd r) (block_succs p rs r)) rs.

Lemma add_succ_old o l b : In b l -> In b (add_succ o l).
Proof. unfold add_succ. destruct o; auto. destruct (existsb _ _); auto. intros. apply in_or_app. auto. Qed.
Lemma add_succ_new b l : In b (add_succ (Some b) l).
Proof.
  unfold add_succ. destruct (existsb (Nat.eqb b) l) eqn:E.
  - apply existsb_exists in E as (x & H & E). apply Nat.eqb_eq in E. subst. exact H.
  - apply in_or_app. right. left. reflexivity.
Qed.
Lemma add_succ_inv o l b : In b (add_succ o l) -> In b l \/ o = Some b.
Proof.
  unfold add_succ. destruct o as [x|]; auto. destruct (existsb _ _); auto.
  intros H. apply in_app_or in H as [H|[<- |[]]]; auto.
Qed.
Lemma fold_add_old (f : nat -> option nat) ts : forall l b, In b l -> In b (fold_left (fun s t => add_succ (f t) s) ts l).
Proof. induction ts as [|t ts IH]; intros l b H; cbn; auto. apply IH, add_succ_old, H. Qed.
Lemma fold_add_new (f : nat -> option nat) ts : forall l b t, In t ts -> f t = Some b -> In b (fold_left (fun s t => add_succ (f t) s) ts l).
Proof.
  induction ts as [|t0 ts IH]; intros l b t H Hf; [destruct H|]. destruct H as [<- |H]; cbn.
  - apply fold_add_old. rewrite Hf. apply add_succ_new.
  - eapply IH; eauto.
Qed.
Lemma fold_add_inv (f : nat -> option nat) ts : forall l b, In b (fold_left (fun s t => add_succ (f t) s) ts l) ->
  In b l \/ exists t, In t ts /\ f t = Some b.
Proof.
  induction ts as [|t0 ts IH]; intros l b H; cbn in H; auto.
  destruct (IH _ _ H) as [H1|(t & H1 & H2)].
  - apply add_succ_inv in H1 as [H1|H1]; auto. right. exists t0. split; [left; reflexivity|exact H1].
  - right. exists t. split; [right; exact H1|exact H2].
Qed.

Section Blocks.
  Context {Y : Type} (prog : list idata) (const : nat -> Z) (dest : Z -> option nat)
          (sem : nat -> list Z -> Y -> option (list Z * Y)) (y0 : Y).
  Notation step := (evm_step prog const dest sem).
  Notation R := (reach prog const dest sem y0).
  Notation pre := (pre prog const dest sem y0).
  Hypothesis DEST : forall v j, dest v = Some j -> exists d, nth_error prog j = Some d /\ d_op d = 0x5b.

  Record cfg_ok (p : bc) : Prop := {
    co_pre : pre p;
    co_fresh : fresh p;
    co_blocks : b_blocks p = blocks_of p
  }.

  Lemma pre_ext p p' : b_insts p' = b_insts p -> b_multi p' = b_multi p -> b_redirects p' = b_redirects p -> pre p -> pre p'.
  Proof.
    intros E1 E2 E3 [A B C D E F]. constructor; unfold flags_ok, live_ok, targets_ok in *; rewrite ?E1, ?E2, ?E3; auto.
  Qed.
  Lemma fresh_ext p p' : b_insts p' = b_insts p -> b_multi p' = b_multi p -> b_redirects p' = b_redirects p ->
    b_dyn p' = b_dyn p -> fresh p -> fresh p'.
  Proof. intros E1 E2 E3 E4 [A B]. constructor; rewrite ?E1, ?E2, ?E3, ?E4; auto. Qed.

  Lemma mark_dead_code_other fuel : forall p p', mark_dead_code fuel p = Some p' ->
    b_multi p' = b_multi p /\ b_redirects p' = b_redirects p /\ b_snaps p' = b_snaps p /\ b_used p' = b_used p.
  Proof.
    induction fuel as [|f IH]; intros p p' E; cbn [mark_dead_code] in E;
      destruct (mark_once (b_dyn p) None 0 (b_insts p)) as [l b] eqn:Em; destruct b; try discriminate;
      try (injection E as <-; auto; fail).
    destruct (recompute_reachable _) as [p2|] eqn:Er; [|discriminate].
    destruct (recompute_reachable_shape _ _ Er) as (L & P & M & R0 & D & S & B & U). cbn in *.
    destruct (IH _ _ E) as (H1 & H2 & H3 & H4). repeat split; congruence.
  Qed.

  Lemma refresh_ok p p' : pre p -> refresh_cfg p = Some p' ->
    cfg_ok p' /\ b_snaps p' = b_snaps p /\ b_used p' = b_used p /\ b_multi p' = b_multi p.
  Proof.
    intros PR E. unfold refresh_cfg in E.
    destruct (recompute_reachable _) as [p1|] eqn:E1; [|discriminate].
    destruct (mark_dead_code _ p1) as [p2|] eqn:E2; [|discriminate].
    destruct (mark_dead_code_pre prog const dest sem y0 DEST _ _ _
                (recompute_pre _ _ _ _ _ _ _ E1 PR) (recompute_fresh _ _ E1) E2) as [PR2 FR2].
    destruct (recompute_reachable_shape _ _ E1) as (L & P & M & R0 & D & S & B & U). cbn in *.
    destruct (mark_dead_code_other _ _ _ E2) as (H1 & H2 & H3 & H4).
    unfold compress_redirects in E. rewrite (pr_redir _ _ _ _ _ _ PR2) in E. cbn in E. injection E as <-. cbn.
    split; [|repeat split; congruence].
    constructor.
    - eapply pre_ext; [..|exact PR2]; try reflexivity. cbn. symmetry. apply (pr_redir _ _ _ _ _ _ PR2).
    - eapply fresh_ext; [..|exact FR2]; try reflexivity. cbn. symmetry. apply (pr_redir _ _ _ _ _ _ PR2).
    - reflexivity.
  Qed.

  Lemma refresh_total p : b_redirects p = [] -> refresh_cfg p <> None.
  Proof.
    intros RD. unfold refresh_cfg.
    destruct (recompute_reachable _) as [p1|] eqn:E1; [|exfalso; revert E1; apply recompute_total; exact RD].
    destruct (recompute_reachable_shape _ _ E1) as (L & P & M & R0 & D & S & B & U). cbn in *.
    destruct (mark_dead_code _ p1) as [p2|] eqn:E2.
    2:{ exfalso. revert E2. apply mark_dead_code_total; [congruence|apply live_jumps_le]. }
    destruct (mark_dead_code_other _ _ _ E2) as (_ & H2 & _).
    unfold compress_redirects. rewrite H2, R0, RD. cbn. discriminate.
  Qed.

  (** *** Facts about the blocks. *)
  Section Facts.
    Variable p : bc.
    Hypothesis OK : cfg_ok p.

    Lemma block_range b bl : nth_error (b_blocks p) b = Some bl ->
      nth_error (ranges (b_dyn p) (b_insts p)) b = Some (bk_start bl, bk_end bl) /\
      bk_succs bl = block_succs p (ranges (b_dyn p) (b_insts p)) (bk_start bl, bk_end bl).
    Proof.
      rewrite (co_blocks _ OK). unfold blocks_of. rewrite nth_error_map.
      destruct (nth_error (ranges _ _) b) as [[s e]|] eqn:E; [|discriminate]. intros H. injection H as <-. cbn. auto.
    Qed.
    Lemma range_block b s e : nth_error (ranges (b_dyn p) (b_insts p)) b = Some (s, e) ->
      exists bl, nth_error (b_blocks p) b = Some bl /\ bk_start bl = s /\ bk_end bl = e.
    Proof.
      intros H. rewrite (co_blocks _ OK). unfold blocks_of. rewrite nth_error_map, H. cbn. eexists; split; [reflexivity|]. auto.
    Qed.
    Lemma ranges_map : map (fun b => (bk_start b, bk_end b)) (b_blocks p) = ranges (b_dyn p) (b_insts p).
    Proof.
      rewrite (co_blocks _ OK). unfold blocks_of. rewrite map_map. rewrite <- (map_id (ranges _ _)) at 2.
      apply map_ext. intros [s e]. reflexivity.
    Qed.
    Let DS := pr_dead _ _ _ _ _ _ (co_pre _ OK).
    Let RS := ranges_spec (b_dyn p) (b_insts p) DS.
    Let W := proj1 RS.

    Lemma block_bounds b bl : nth_error (b_blocks p) b = Some bl ->
      (bk_start bl < bk_end bl <= length (b_insts p))%nat.
    Proof. intros H. destruct (block_range _ _ H) as [H1 _]. destruct (wf_ranges_nth _ _ _ _ _ W H1). cbn in *. lia. Qed.

    Lemma block_chain b bl : nth_error (b_blocks p) b = Some bl -> chain (b_dyn p) (b_insts p) (bk_start bl, bk_end bl).
    Proof. intros H. destruct (block_range _ _ H) as [H1 _]. apply RS. eapply nth_error_In; eauto. Qed.

    Lemma i2b_in b bl i : nth_error (b_blocks p) b = Some bl -> (bk_start bl <= i < bk_end bl)%nat ->
      inst_to_block p i = Some b.
    Proof.
      intros H Hi. unfold inst_to_block. rewrite ranges_map. destruct (block_range _ _ H) as [H1 _].
      rewrite (find_range_nth _ _ _ _ 0 _ i W H1); [reflexivity|]. unfold in_range. cbn [fst snd]. lia.
    Qed.
    Lemma i2b_some i b : inst_to_block p i = Some b ->
      exists bl, nth_error (b_blocks p) b = Some bl /\ (bk_start bl <= i < bk_end bl)%nat.
    Proof.
      unfold inst_to_block. rewrite ranges_map. intros H. destruct (find_range_some _ _ _ _ H) as (k & [s e] & -> & H1 & H2).
      cbn [plus]. destruct (range_block _ _ _ H1) as (bl & Hb & <- & <-). exists bl. split; [exact Hb|].
      unfold in_range in H2. cbn [fst snd] in H2. lia.
    Qed.
    Lemma live_in_block i d : nth_error (b_insts p) i = Some d -> is_dead d = false ->
      exists b bl, nth_error (b_blocks p) b = Some bl /\ (bk_start bl <= i < bk_end bl)%nat.
    Proof.
      intros Hn Hd. pose proof RS as (_ & _ & Cov & _). destruct (Cov i d Hn Hd) as ([s e] & Hr & Hi).
      apply In_nth_error in Hr as [b Hb]. destruct (range_block _ _ _ Hb) as (bl & Hbl & E1 & E2). exists b, bl.
      split; [exact Hbl|]. unfold in_range in Hi. cbn [fst snd] in Hi. lia.
    Qed.
    Lemma leader_block i d : nth_error (b_insts p) i = Some d -> is_dead d = false -> is_leader (b_dyn p) (b_insts p) i = true ->
      exists b bl, nth_error (b_blocks p) b = Some bl /\ bk_start bl = i.
    Proof.
      intros Hn Hd Hl. pose proof RS as (_ & _ & _ & Lead & _). destruct (Lead i d Hn Hd Hl) as ([s e] & Hr & Hi).
      apply In_nth_error in Hr as [b Hb]. destruct (range_block _ _ _ Hb) as (bl & Hbl & E1 & E2). exists b, bl.
      split; [exact Hbl|]. cbn in Hi. congruence.
    Qed.
    Lemma in_block_live b bl i : nth_error (b_blocks p) b = Some bl -> (bk_start bl <= i < bk_end bl)%nat ->
      exists d, nth_error (b_insts p) i = Some d /\ is_dead d = false /\
        ((S i < bk_end bl)%nat -> is_branching d = false /\ is_leader (b_dyn p) (b_insts p) (S i) = false).
    Proof. intros H Hi. apply (block_chain _ _ H i Hi). Qed.
    Lemma block_zero d : nth_error (b_insts p) 0 = Some d -> exists bl, nth_error (b_blocks p) 0 = Some bl /\ bk_start bl = 0%nat.
    Proof.
      intros Hn. pose proof RS as (_ & _ & _ & _ & Z0). destruct (Z0 d Hn) as (e & rs & E).
      destruct (range_block 0 0 e) as (bl & Hb & E1 & E2); [rewrite E; reflexivity|]. eauto.
    Qed.
    (** Two blocks sharing an instruction are the same. *)
    Lemma block_unique b bl b' bl' i : nth_error (b_blocks p) b = Some bl -> nth_error (b_blocks p) b' = Some bl' ->
      (bk_start bl <= i < bk_end bl)%nat -> (bk_start bl' <= i < bk_end bl')%nat -> b = b' /\ bl = bl'.
    Proof.
      intros H H' Hi Hi'. pose proof (i2b_in _ _ _ H Hi) as X. rewrite (i2b_in _ _ _ H' Hi') in X.
      assert (b = b') by congruence. subst b'. split; [reflexivity|congruence].
    Qed.
    (** The instruction after a block starts a block if it is live. *)
    Lemma next_start b bl d : nth_error (b_blocks p) b = Some bl -> nth_error (b_insts p) (bk_end bl) = Some d ->
      is_dead d = false -> exists b' bl', nth_error (b_blocks p) b' = Some bl' /\ bk_start bl' = bk_end bl.
    Proof.
      intros H Hn Hd. destruct (live_in_block _ _ Hn Hd) as (b' & bl' & H' & Hi'). exists b', bl'. split; [exact H'|].
      pose proof (block_bounds _ _ H). destruct (Nat.eq_dec (bk_start bl') (bk_end bl)) as [|Hne]; [assumption|exfalso].
      destruct (block_unique b bl b' bl' (bk_end bl - 1) H H') as [_ X]; [lia..|]. rewrite X in *. lia.
    Qed.
    Lemma reachable_jd_block i d : nth_error (b_insts p) i = Some d -> is_dead d = false ->
      is_reachable_jumpdest (b_dyn p) d = true -> exists b bl, nth_error (b_blocks p) b = Some bl /\ bk_start bl = i.
    Proof.
      intros Hn Hd Hr. eapply leader_block; eauto. unfold is_leader. rewrite Hn, Hr. apply orb_true_r.
    Qed.
    Lemma resolve_nil t : resolve_block (ranges (b_dyn p) (b_insts p)) (b_redirects p) t = inst_to_block p t.
    Proof.
      unfold resolve_block. rewrite (pr_redir _ _ _ _ _ _ (co_pre _ OK)). cbn. unfold inst_to_block. rewrite ranges_map. reflexivity.
    Qed.

    (** Edges. *)
    Lemma succ_fall b bl d b' : nth_error (b_blocks p) b = Some bl -> nth_error (b_insts p) (terminator bl) = Some d ->
      can_fall_through d = true -> inst_to_block p (bk_end bl) = Some b' -> In b' (bk_succs bl).
    Proof.
      intros H Hn Hf Hb. pose proof (block_bounds _ _ H). destruct (block_range _ _ H) as [_ ->]. unfold block_succs. cbn [fst snd].
      unfold terminator in Hn. rewrite Hn, Hf, !resolve_nil. replace (S (bk_end bl - 1)) with (bk_end bl) by lia. rewrite Hb.
      destruct (f_multi (d_flags d) && _); [destruct (b_multi p _)|destruct (_ && _)];
        try (apply fold_add_old); try (apply add_succ_old); left; reflexivity.
    Qed.
    Lemma succ_static b bl d t b' : nth_error (b_blocks p) b = Some bl -> nth_error (b_insts p) (terminator bl) = Some d ->
      is_static_jump d = true -> f_invalid (d_flags d) = false ->
      (if f_multi (d_flags d) then exists ts, b_multi p (terminator bl) = Some ts /\ In t ts else d_target d = t) ->
      inst_to_block p t = Some b' -> In b' (bk_succs bl).
    Proof.
      intros H Hn Hs Hi Ht Hb. destruct (block_range _ _ H) as [_ ->]. unfold block_succs. cbn [fst snd].
      unfold terminator in *. rewrite Hn.
      destruct (f_multi (d_flags d)) eqn:Em.
      - destruct Ht as (ts & M & In0). rewrite M. cbn [andb].
        eapply (fold_add_new (resolve_block (ranges (b_dyn p) (b_insts p)) (b_redirects p))); [exact In0|].
        rewrite resolve_nil. exact Hb.
      - cbn [andb]. rewrite Hs, Hi, Ht, resolve_nil, Hb. cbn [andb negb]. apply add_succ_new.
    Qed.
    Lemma succ_inv b bl b' : nth_error (b_blocks p) b = Some bl -> In b' (bk_succs bl) ->
      exists d, nth_error (b_insts p) (terminator bl) = Some d /\
        (can_fall_through d = true /\ inst_to_block p (bk_end bl) = Some b'
         \/ exists t, f_multi (d_flags d) = true /\ (exists ts, b_multi p (terminator bl) = Some ts /\ In t ts) /\ inst_to_block p t = Some b'
         \/ is_static_jump d = true /\ f_invalid (d_flags d) = false /\ inst_to_block p (d_target d) = Some b' /\
            (f_multi (d_flags d) = false \/ b_multi p (terminator bl) = None)).
    Proof.
      intros H Hin. pose proof (block_bounds _ _ H). destruct (block_range _ _ H) as [_ E]. rewrite E in Hin.
      unfold block_succs in Hin. cbn [fst snd] in Hin. unfold terminator in *.
      destruct (nth_error (b_insts p) (bk_end bl - 1)) as [d|] eqn:Hn; [|destruct Hin]. exists d. split; [reflexivity|].
      set (s0 := if can_fall_through d then _ else _) in Hin.
      assert (S0 : In b' s0 -> can_fall_through d = true /\ inst_to_block p (bk_end bl) = Some b').
      { subst s0. destruct (can_fall_through d); [|intros []]. rewrite resolve_nil. replace (S (bk_end bl - 1)) with (bk_end bl) by lia.
        destruct (inst_to_block p (bk_end bl)); [|intros []]. intros [<- |[]]. auto. }
      destruct (f_multi (d_flags d)) eqn:Em; cbn [andb] in Hin.
      - destruct (b_multi p (bk_end bl - 1)) as [ts|] eqn:EM.
        + apply (fold_add_inv (resolve_block (ranges (b_dyn p) (b_insts p)) (b_redirects p))) in Hin as [Hin|(t & Ht & Hr)]; [left; auto|].
          rewrite resolve_nil in Hr. right. exists t. left. split; [reflexivity|]. split; [eauto|exact Hr].
        + destruct (is_static_jump d && negb (f_invalid (d_flags d))) eqn:Es; [|left; auto].
          apply andb_true_iff in Es as [Es Ei]. apply negb_true_iff in Ei.
          apply add_succ_inv in Hin as [Hin|Hr]; [left; auto|]. rewrite resolve_nil in Hr. right. exists 0%nat. right. auto.
      - destruct (is_static_jump d && negb (f_invalid (d_flags d))) eqn:Es; [|left; auto].
        apply andb_true_iff in Es as [Es Ei]. apply negb_true_iff in Ei.
        apply add_succ_inv in Hin as [Hin|Hr]; [left; auto|]. rewrite resolve_nil in Hr. right. exists 0%nat. right. auto.
    Qed.

    Lemma is_dest_jumpdest t d : is_dest prog t -> nth_error (b_insts p) t = Some d -> is_jumpdest d = true.
    Proof.
      intros (d0 & H0 & O0) Hd. destruct (pr_skel _ _ _ _ _ _ (co_pre _ OK)) as [_ SK].
      destruct (SK t d0 d H0 Hd) as (So & _). unfold is_jumpdest. rewrite So, O0. reflexivity.
    Qed.
    (** A live reachable JUMPDEST inside a block is its first instruction. *)
    Lemma jd_start b bl t d : nth_error (b_blocks p) b = Some bl -> (bk_start bl <= t < bk_end bl)%nat ->
      nth_error (b_insts p) t = Some d -> is_reachable_jumpdest (b_dyn p) d = true -> bk_start bl = t.
    Proof.
      intros H Ht Hn Hr. destruct (Nat.eq_dec (bk_start bl) t) as [|Hne]; [assumption|exfalso].
      destruct (in_block_live b bl (t - 1) H) as (e & _ & _ & He); [lia|].
      destruct He as [_ He]; [lia|]. replace (S (t - 1)) with t in He by lia.
      unfold is_leader in He. rewrite Hn, Hr, orb_true_r in He. discriminate.
    Qed.
    Lemma end_start b bl b' bl' : nth_error (b_blocks p) b = Some bl -> nth_error (b_blocks p) b' = Some bl' ->
      (bk_start bl' <= bk_end bl < bk_end bl')%nat -> bk_start bl' = bk_end bl.
    Proof.
      intros H H' Hi. pose proof (block_bounds _ _ H). destruct (Nat.eq_dec (bk_start bl') (bk_end bl)) as [|Hne]; [assumption|exfalso].
      destruct (block_unique b bl b' bl' (bk_end bl - 1) H H') as [_ X]; [lia..|]. rewrite X in *. lia.
    Qed.

    Lemma succ_start b bl b' : nth_error (b_blocks p) b = Some bl -> In b' (bk_succs bl) ->
      exists bl', nth_error (b_blocks p) b' = Some bl' /\
        (bk_start bl' = bk_end bl \/ exists d, nth_error (b_insts p) (bk_start bl') = Some d /\ is_jumpdest d = true).
    Proof.
      intros H Hin. destruct (succ_inv _ _ _ H Hin) as (d & Hn & Hc).
      pose proof (block_bounds _ _ H) as BB.
      destruct (in_block_live b bl (terminator bl) H) as (d1 & Hd1 & Hlive & _); [unfold terminator; lia|].
      assert (d1 = d) by congruence. subst d1. clear Hd1.
      destruct (pr_targets _ _ _ _ _ _ (co_pre _ OK) _ _ Hn) as [TM [TG _]].
      assert (K : forall t, is_static_jump d = true -> f_invalid (d_flags d) = false ->
         (if f_multi (d_flags d) then exists ts, b_multi p (terminator bl) = Some ts /\ In t ts else t = d_target d) ->
         is_dest prog t -> inst_to_block p t = Some b' ->
         exists bl', nth_error (b_blocks p) b' = Some bl' /\
          (bk_start bl' = bk_end bl \/ exists d, nth_error (b_insts p) (bk_start bl') = Some d /\ is_jumpdest d = true)).
      { intros t Hs Hi Ht Hdst Hb. destruct (i2b_some _ _ Hb) as (bl' & Hb' & Hr). exists bl'. split; [exact Hb'|]. right.
        destruct (in_block_live _ _ _ Hb' Hr) as (dt & Hdt & _).
        pose proof (is_dest_jumpdest _ _ Hdst Hdt) as Jd.
        assert (Hrj : is_reachable_jumpdest (b_dyn p) dt = true).
        { unfold is_reachable_jumpdest. rewrite Jd. cbn. apply orb_true_iff. right.
          eapply (fr_reach p (co_fresh _ OK) _ d t t dt Hn); auto. rewrite (pr_redir _ _ _ _ _ _ (co_pre _ OK)). reflexivity. }
        rewrite (jd_start _ _ _ _ Hb' Hr Hdt Hrj). eauto. }
      assert (K0 : inst_to_block p (bk_end bl) = Some b' -> exists bl', nth_error (b_blocks p) b' = Some bl' /\
          (bk_start bl' = bk_end bl \/ exists d, nth_error (b_insts p) (bk_start bl') = Some d /\ is_jumpdest d = true)).
      { intros Hb. destruct (i2b_some _ _ Hb) as (bl' & Hb' & Hr). exists bl'. split; [exact Hb'|]. left.
        eapply end_start; eauto. }
      destruct Hc as [[_ Hb]|(t & [(Hm & Ht & Hb)|(Hs & Hi & Hb & Hor)])].
      - apply K0, Hb.
      - destruct (TM Hm) as (Hs & Hi & _). specialize (TG Hs Hi). rewrite Hm in *. destruct Ht as (ts & M & I0).
        apply (K t Hs Hi); eauto.
      - destruct (f_multi (d_flags d)) eqn:Em.
        { destruct (TM eq_refl) as (_ & _ & X). destruct Hor; [discriminate|contradiction]. }
        destruct (TG Hs Hi) as [E|E].
        + apply K0. rewrite E in Hb. unfold terminator in Hb. replace (S (bk_end bl - 1)) with (bk_end bl) in Hb by lia. exact Hb.
        + apply (K (d_target d) Hs Hi); auto.
    Qed.

    (** One step of an execution, seen from the blocks. *)
    Lemma step_block i st y j st' y' b bl dj :
      R i st y -> step i st y = Some (j, st', y') -> nth_error (b_blocks p) b = Some bl -> (bk_start bl <= i < bk_end bl)%nat ->
      nth_error (b_insts p) j = Some dj ->
      exists d, nth_error (b_insts p) i = Some d /\ is_dead d = false /\
      ((S i < bk_end bl)%nat /\ j = S i /\ is_jump d = false
       \/ S i = bk_end bl /\ exists b' bl', nth_error (b_blocks p) b' = Some bl' /\ bk_start bl' = j /\
           (j = S i /\ In b' (bk_succs bl)
            \/ is_jumpdest dj = true /\ is_jump d = true /\ (f_static (d_flags d) = true -> In b' (bk_succs bl)) /\
               (d_op d = OP_JUMPI -> exists t c s, st = t :: c :: s /\ c <> 0) /\
               exists v, hd_error st = Some v /\ dest v = Some j)).
    Proof.
      intros HR Hs Hb Hi Hj.
      destruct (in_block_live _ _ _ Hb Hi) as (d & Hn & Hd & Hin). exists d. split; [exact Hn|]. split; [exact Hd|].
      pose proof (co_pre _ OK) as PR.
      pose proof (reach_step _ _ _ _ _ _ _ _ _ _ _ HR Hs) as HR'.
      pose proof (pr_live _ _ _ _ _ _ PR _ _ _ _ HR' Hj) as Lj.
      destruct (flow prog const dest sem y0 DEST p i st y j st' y' d (pr_skel _ _ _ _ _ _ PR) (pr_redir _ _ _ _ _ _ PR) (co_fresh _ OK)
        (pr_flags _ _ _ _ _ _ PR) HR Hn Hd Hs) as [[-> Hf]|(dj' & v & Hdj & Jd & Hrj & Hjmp & Hv & Hdv & Hcnd & Hst)].
      - destruct (Nat.eq_dec (S i) (bk_end bl)) as [E|E].
        + right. split; [exact E|]. rewrite E in Hj.
          destruct (next_start _ _ _ Hb Hj Lj) as (b' & bl' & Hb' & E'). exists b', bl'. split; [exact Hb'|]. split; [congruence|].
          left. split; [reflexivity|].
          assert (I0 : inst_to_block p (bk_end bl) = Some b').
          { eapply i2b_in; [exact Hb'|]. pose proof (block_bounds _ _ Hb'). lia. }
          assert (T0 : terminator bl = i) by (unfold terminator; lia).
          destruct Hf as [Hf|(Hf1 & Hf2 & Hf3 & Hf4)].
          * eapply succ_fall; eauto. congruence.
          * eapply (succ_static b bl d (S i)); eauto; try congruence. rewrite Hf3. exact Hf4.
        + left. split; [lia|]. split; [reflexivity|]. destruct Hin as [Hb1 _]; [lia|].
          unfold is_branching in Hb1. apply orb_false_iff in Hb1 as [X _]. exact X.
      - assert (dj' = dj) by congruence. subst dj'.
        assert (E : S i = bk_end bl).
        { destruct (Nat.eq_dec (S i) (bk_end bl)) as [|E]; [assumption|]. destruct Hin as [Hb1 _]; [lia|].
          unfold is_branching in Hb1. rewrite Hjmp in Hb1. discriminate. }
        right. split; [exact E|].
        destruct (reachable_jd_block _ _ Hj Lj Hrj) as (b' & bl' & Hb' & E'). exists b', bl'. split; [exact Hb'|]. split; [exact E'|].
        right. split; [exact Jd|]. split; [exact Hjmp|]. split; [|split; [exact Hcnd|eauto]].
        intros Fs. destruct (Hst Fs) as [Hi0 Hm].
        assert (T0 : terminator bl = i) by (unfold terminator; lia).
        eapply (succ_static b bl d j); eauto; try congruence.
        + unfold is_static_jump. rewrite Hjmp, Fs. reflexivity.
        + rewrite T0. exact Hm.
        + eapply i2b_in; [exact Hb'|]. pose proof (block_bounds _ _ Hb'). lia.
    Qed.

    Lemma reach_block i st y d : R i st y -> nth_error (b_insts p) i = Some d ->
      exists b bl, nth_error (b_blocks p) b = Some bl /\ (bk_start bl <= i < bk_end bl)%nat.
    Proof. intros HR Hn. eapply live_in_block; eauto. eapply (pr_live _ _ _ _ _ _ (co_pre _ OK)); eauto. Qed.
  End Facts.
End Blocks.
