(** Lemmas about redirects and termination of block deduplication. *)
From Verif Require Import DedupModel FlowSpec CfgProof BlockProof ProgramProof AnalysisProof DedupProof CommitProof.
From Coq Require Import ZifyBool Permutation Sorted.
Open Scope Z_scope.

(** ** Blocks, whatever the dead instructions look like. *)
Definition live_at (l : list idata) (i : nat) : Prop := exists d, nth_error l i = Some d /\ is_dead d = false.
Lemma wf_lo rs : forall lo lo' hi, wf_ranges rs lo hi -> (lo' <= lo)%nat -> wf_ranges rs lo' hi.
Proof. destruct rs as [|[s e] rs]; cbn; intros; [auto|]. intuition lia. Qed.
Lemma build_basic dyn all : forall l i cur pending, skipn i all = l -> (i <= length all)%nat ->
  match cur with Some (s, e) => (s < e <= i)%nat /\ live_at all s /\ live_at all (e - 1) | None => True end ->
  wf_ranges (build dyn all i l cur pending) (lo_of i cur) (length all) /\
  forall r, In r (build dyn all i l cur pending) -> live_at all (fst r) /\ live_at all (snd r - 1).
Proof.
  induction l as [|d l IH]; intros i cur pending SK Hi C; cbn [build].
  - destruct cur as [[s e]|]; cbn; [|tauto]. destruct C as (C1 & C2 & C3). split; [lia|]. intros r [<- |[]]. auto.
  - pose proof (skipn_tail d l i all SK) as SK'.
    assert (Hd : nth_error all i = Some d) by (rewrite <- (Nat.add_0_r i), <- nth_skipn, SK; reflexivity).
    pose proof (nth_lt _ _ _ Hd) as Hi'.
    destruct (is_dead d) eqn:D.
    + destruct (IH (S i) cur (pending || is_leader dyn all i) SK' Hi') as [W L].
      { destruct cur as [[s e]|]; [|exact C]. destruct C as (C1 & C2). split; [lia|exact C2]. }
      split; [|exact L]. destruct cur as [[s e]|]; [exact W|]. cbn in *. eapply wf_lo; [exact W|lia].
    + assert (LV : live_at all i) by (exists d; auto).
      assert (NEW : forall pe, wf_ranges (build dyn all (S i) l (Some (i, S i)) pe) i (length all) /\
        forall r, In r (build dyn all (S i) l (Some (i, S i)) pe) -> live_at all (fst r) /\ live_at all (snd r - 1)).
      { intros pe. apply (IH (S i) (Some (i, S i)) pe SK' Hi'). replace (S i - 1)%nat with i by lia. repeat split; auto. }
      destruct cur as [[s e]|]; [|apply NEW]. destruct C as (C1 & C2 & C3).
      destruct (is_leader dyn all i || pending).
      * destruct (NEW false) as [W L]. split.
        -- cbn. repeat split; try lia. eapply wf_lo; [exact W|lia].
        -- intros r [<- |Hr]; auto.
      * apply (IH (S i) (Some (s, S i)) false SK' Hi'). replace (S i - 1)%nat with i by lia. repeat split; auto; lia.
Qed.

Lemma ranges_basic dyn l : wf_ranges (ranges dyn l) 0 (length l) /\
  forall r, In r (ranges dyn l) -> live_at l (fst r) /\ live_at l (snd r - 1).
Proof. apply build_basic; [reflexivity|lia|exact I]. Qed.
Lemma wf_ranges_order rs : forall lo hi a b ra rb, wf_ranges rs lo hi -> nth_error rs a = Some ra -> nth_error rs b = Some rb ->
  (a < b)%nat -> (snd ra <= fst rb)%nat.
Proof.
  induction rs as [|[s e] rs IH]; intros lo hi a b ra rb W Ha Hb H; [destruct a; discriminate|].
  cbn in W. destruct W as (W1 & W2 & W3 & W4). destruct b as [|b]; [lia|]. destruct a as [|a].
  - injection Ha as <-. cbn in Hb. destruct (wf_ranges_nth _ _ _ _ _ W4 Hb). cbn. lia.
  - cbn in Ha, Hb. eapply IH; [exact W4|exact Ha|exact Hb|lia].
Qed.

(** ** Instructions only die. *)
(** What no pass changes. *)
Definition frozen (d : idata) := (d_data d, d_io d, f_disabled (d_flags d), f_unknown (d_flags d), f_noop (d_flags d)).
Definition shrinks (l l' : list idata) : Prop := length l' = length l /\
    forall k d', nth_error l' k = Some d' -> exists d, nth_error l k = Some d /\ d_op d' = d_op d /\ frozen d' = frozen d /\
    f_multi (d_flags d') = f_multi (d_flags d) /\ (is_dead d = true -> is_dead d' = true).
Lemma shrinks_refl l : shrinks l l.
Proof. split; [reflexivity|]. intros k d H. exists d. auto. Qed.
Lemma shrinks_trans a b c : shrinks a b -> shrinks b c -> shrinks a c.
Proof.
  intros [L1 H1] [L2 H2]. split; [congruence|]. intros k d' H. destruct (H2 k d' H) as (d & Hd & A1 & A2 & A3 & A4).
  destruct (H1 k d Hd) as (e & He & B1 & B2 & B3 & B4). exists e. repeat split; auto; congruence.
Qed.
Definition alive (l : list idata) : nat := length (filter (fun d => negb (is_dead d)) l).
Lemma alive_le l : (alive l <= length l)%nat.
Proof. unfold alive. induction l as [|d l IH]; [auto|]. cbn [filter]. destruct (negb (is_dead d)); cbn [length]; lia. Qed.
Lemma shrinks_alive l : forall l', shrinks l l' -> (alive l' <= alive l)%nat /\
    (forall k, live_at l k -> ~ live_at l' k -> (alive l' < alive l)%nat).
Proof.
  unfold alive. induction l as [|d l IH]; intros [|d' l'] [L P]; try discriminate.
  - split; [auto|]. intros k (x & Hx & _). destruct k; discriminate.
  - destruct (P 0%nat d' eq_refl) as (d0 & E & _ & _ & _ & D). injection E as <-.
    destruct (IH l') as [A B]; [split; [cbn in L; congruence|intros k; apply (P (S k))]|].
    cbn [filter]. split.
    + destruct (is_dead d), (is_dead d'); cbn [negb length]; try lia; discriminate (D eq_refl).
    + intros [|k] Hk Hn.
      * destruct Hk as (x & Hx & Dx). injection Hx as <-. rewrite Dx. cbn [negb length].
        destruct (is_dead d') eqn:E'; cbn [negb length]; [lia|]. exfalso. apply Hn. exists d'. auto.
      * specialize (B k Hk Hn). destruct (is_dead d), (is_dead d'); cbn [negb length]; try lia; discriminate (D eq_refl).
Qed.
Lemma shrinks_live l l' k : shrinks l l' -> live_at l' k -> live_at l k.
Proof. intros [_ P] (d' & H & D). destruct (P k d' H) as (d & Hd & _ & _ & _ & X). exists d. split; [exact Hd|]. destruct (is_dead d); [rewrite X in D by reflexivity; discriminate|reflexivity]. Qed.
Lemma shrinks_upd k f l : (forall d, d_op (f d) = d_op d /\ frozen (f d) = frozen d /\ f_multi (d_flags (f d)) = f_multi (d_flags d) /\
    (is_dead d = true -> is_dead (f d) = true)) -> shrinks l (upd_nth k f l).
Proof.
  intros F. split; [apply upd_nth_length|]. intros i d' H. rewrite nth_upd_nth in H. destruct (i =? k)%nat.
  - destruct (nth_error l i) as [d|]; [|discriminate]. injection H as <-. exists d. split; [reflexivity|]. destruct (F d) as (A & B & C & D). auto.
  - exists d'. auto.
Qed.
Lemma kill_shrinks idx : forall l, shrinks l (kill l idx).
Proof.
  unfold kill. induction idx as [|i idx IH]; intros l; cbn; [apply shrinks_refl|].
  eapply shrinks_trans; [|apply IH]. apply shrinks_upd. intros d. repeat split.
Qed.
Lemma kill_dead idx : forall l i, In i idx -> ~ live_at (kill l idx) i.
Proof.
  unfold kill. induction idx as [|a idx IH]; intros l i H; [destruct H|]. destruct H as [-> |H]; cbn.
  - intros HL. pose proof (shrinks_live _ _ _ (kill_shrinks idx _) HL) as (d & Hd & D). rewrite nth_upd_nth, Nat.eqb_refl in Hd.
    destruct (nth_error l i); [|discriminate]. injection Hd as <-. discriminate.
  - apply IH. exact H.
Qed.
Lemma kill_live idx : forall l i, ~ In i idx -> live_at l i -> live_at (kill l idx) i.
Proof.
  unfold kill. induction idx as [|a idx IH]; intros l i N H; cbn; [exact H|]. apply IH; [intros X; apply N; right; exact X|].
  destruct H as (d & Hd & D). exists d. split; [|exact D]. rewrite nth_upd_nth. destruct (Nat.eqb_spec i a); [exfalso; apply N; left; auto|exact Hd].
Qed.
(** Changes that keep the dead bits. *)
Definition keeps (l l' : list idata) : Prop := shrinks l l' /\ forall i, live_at l i -> live_at l' i.
Lemma keeps_refl l : keeps l l.
Proof. split; [apply shrinks_refl|auto]. Qed.
Lemma keeps_trans a b c : keeps a b -> keeps b c -> keeps a c.
Proof. intros [A1 A2] [B1 B2]. split; [eapply shrinks_trans; eauto|auto]. Qed.
Lemma keeps_upd k f l : (forall d, d_op (f d) = d_op d /\ frozen (f d) = frozen d /\ d_flags (f d) = d_flags d) -> keeps l (upd_nth k f l).
Proof.
  intros F. split.
  - apply shrinks_upd. intros d. destruct (F d) as (A & B & C). unfold is_dead. rewrite C. auto.
  - intros i (d & Hd & D). destruct (Nat.eqb_spec i k) as [-> |N].
    + exists (f d). rewrite nth_upd_nth, Nat.eqb_refl, Hd. split; [reflexivity|]. unfold is_dead. rewrite (proj2 (proj2 (F d))). exact D.
    + exists d. rewrite nth_upd_nth. destruct (Nat.eqb_spec i k); [congruence|]. auto.
Qed.
Lemma retarget_keeps ps a b : forall l, keeps l (retarget ps a b l).
Proof.
  unfold retarget. induction ps as [|i ps IH]; intros l; cbn; [apply keeps_refl|].
  eapply keeps_trans; [|apply IH]. destruct (has _ l i); [|apply keeps_refl]. apply keeps_upd. intros d. repeat split.
Qed.

Lemma insert_key_nodup k v r : NoDup (map fst r) -> NoDup (map fst (insert_key k v r)).
Proof.
  intros N. destruct (in_dec Nat.eq_dec k (map fst r)) as [I|I]; [rewrite insert_key_keys; assumption|].
  assert (E : map fst (insert_key k v r) = map fst r ++ [k]).
  { clear N. induction r as [|[a b] r IH]; cbn in *; [reflexivity|]. destruct (Nat.eqb_spec a k); [exfalso; auto|]. cbn. f_equal. auto. }
  rewrite E. apply Permutation_NoDup with (k :: map fst r); [apply Permutation_cons_append|]. constructor; assumption.
Qed.

(** ** One merge. *)
Definition multi_ok (p : bc) : Prop := forall i d, nth_error (b_insts p) i = Some d -> is_dead d = false ->
  f_multi (d_flags d) = true -> b_multi p i <> None.
Definition key_dead (p : bc) : Prop := forall k v, In (k, v) (b_redirects p) -> ~ live_at (b_insts p) k.
Definition same_head (p : bc) : Prop := forall k v d e, In (k, v) (b_redirects p) -> nth_error (b_insts p) k = Some d ->
  nth_error (b_insts p) v = Some e -> d_op d = d_op e.
Record rinv (p : bc) : Prop := {
  ri_down : downward (b_redirects p);
  ri_multi : multi_ok p;
  ri_dead : key_dead p;
  ri_head : same_head p;
  ri_keys : NoDup (map fst (b_redirects p))
}.
Definition wf_blocks (p : bc) : Prop := wf_ranges (map (fun b => (bk_start b, bk_end b)) (b_blocks p)) 0 (length (b_insts p)).
Lemma wf_block p b bl : wf_blocks p -> nth_error (b_blocks p) b = Some bl -> (bk_start bl < bk_end bl <= length (b_insts p))%nat.
Proof.
  intros W H. destruct (wf_ranges_nth _ _ _ b (bk_start bl, bk_end bl) W) as [A B]; [rewrite nth_error_map, H; reflexivity|]. cbn in *. lia.
Qed.
Lemma wf_order p a b bla blb : wf_blocks p -> nth_error (b_blocks p) a = Some bla -> nth_error (b_blocks p) b = Some blb -> (a < b)%nat ->
  (bk_end bla <= bk_start blb)%nat.
Proof.
  intros W Ha Hb H. apply (wf_ranges_order _ _ _ a b (bk_start bla, bk_end bla) (bk_start blb, bk_end blb) W); auto;
    rewrite nth_error_map; [rewrite Ha|rewrite Hb]; reflexivity.
Qed.
Lemma wf_disjoint p a b bla blb i : wf_blocks p -> nth_error (b_blocks p) a = Some bla -> nth_error (b_blocks p) b = Some blb ->
  In i (blk_insts bla) -> In i (blk_insts blb) -> a = b.
Proof.
  intros W Ha Hb Ia Ib. apply in_blk in Ia. apply in_blk in Ib. destruct (Nat.lt_trichotomy a b) as [H|[H|H]]; [|exact H|].
  - pose proof (wf_order _ _ _ _ _ W Ha Hb H). lia.
  - pose proof (wf_order _ _ _ _ _ W Hb Ha H). lia.
Qed.
Lemma term_in p b bl : wf_blocks p -> nth_error (b_blocks p) b = Some bl -> In (terminator bl) (blk_insts bl) /\ In (bk_start bl) (blk_insts bl).
Proof. intros W H. pose proof (wf_block _ _ _ W H). rewrite !in_blk. unfold terminator. lia. Qed.

Lemma merge_dup_ok p c cb d db : rinv p -> wf_blocks p -> nth_error (b_blocks p) c = Some cb -> nth_error (b_blocks p) d = Some db ->
  (c < d)%nat -> live_at (b_insts p) (terminator cb) ->
  (forall x y, nth_error (b_insts p) (bk_start cb) = Some x -> nth_error (b_insts p) (bk_start db) = Some y -> d_op y = d_op x) ->
  (forall x y, nth_error (b_insts p) (terminator cb) = Some x -> nth_error (b_insts p) (terminator db) = Some y -> f_multi (d_flags y) = f_multi (d_flags x)) ->
  exists p', merge_dup cb p d = Some p' /\ rinv p' /\ shrinks (b_insts p) (b_insts p') /\ b_blocks p' = b_blocks p /\
    (forall i, ~ In i (blk_insts db) -> live_at (b_insts p) i -> live_at (b_insts p') i) /\
    (forall i, In i (blk_insts db) -> ~ live_at (b_insts p') i).
Proof.
  intros [RD RM RK RH RN] W Hc Hd LT LC HO HM. unfold merge_dup. rewrite Hd.
  pose proof (wf_order _ _ _ _ _ W Hc Hd LT) as ORD. pose proof (wf_block _ _ _ W Hc) as Bc. pose proof (wf_block _ _ _ W Hd) as Bd.
  destruct (term_in _ _ _ W Hc) as [Tc Sc]. destruct (term_in _ _ _ W Hd) as [Td Sd].
  set (l1 := kill (b_insts p) (blk_insts db)).
  assert (S1 : shrinks (b_insts p) l1) by apply kill_shrinks.
  set (l2 := if has is_jumpdest l1 (bk_start db) && has d_reach l1 (bk_start db) && has is_jumpdest l1 (bk_start cb)
             then upd_nth (bk_start cb) (fun x => set_reach x true) l1 else l1).
  assert (K2 : keeps l1 l2).
  { subst l2. destruct (_ && _ && _); [|apply keeps_refl]. apply keeps_upd. intros x. repeat split. }
  set (mu := has (fun x => f_multi (d_flags x)) l2 (terminator db)).
  assert (Emu : forall y, nth_error (b_insts p) (terminator db) = Some y -> mu = f_multi (d_flags y)).
  { intros y Hy. subst mu. unfold has. destruct (nth_error l2 (terminator db)) as [y2|] eqn:E.
    - destruct (proj2 (shrinks_trans _ _ _ S1 (proj1 K2)) _ _ E) as (y0 & Hy0 & _ & _ & X & _). congruence.
    - exfalso. apply nth_error_None in E. rewrite (proj1 (shrinks_trans _ _ _ S1 (proj1 K2))) in E. apply nth_lt in Hy. lia. }
  assert (NE : terminator cb <> terminator db) by (unfold terminator; lia).
  assert (MM : exists m, merge_multi (b_multi p) (terminator cb) (terminator db) mu = Some m /\
    forall i, i <> terminator db -> b_multi p i <> None -> m i <> None).
  { unfold merge_multi. destruct (nth_some (b_insts p) (terminator db)) as [y Hy]; [unfold terminator; lia|].
    rewrite (Emu y Hy). destruct (f_multi (d_flags y)) eqn:Ey; [|exists (b_multi p); auto].
    destruct (b_multi p (terminator db)) as [ts|] eqn:Et; [|exists (b_multi p); auto].
    rewrite upd_other by exact NE. destruct LC as (x & Hx & Dx).
    destruct (b_multi p (terminator cb)) as [cts|] eqn:Ec.
    - eexists. split; [reflexivity|]. intros i Hi Hn. destruct (Nat.eq_dec i (terminator cb)) as [-> |N]; [rewrite upd_same; discriminate|].
      rewrite !upd_other by assumption. exact Hn.
    - exfalso. apply (RM _ x Hx Dx); [rewrite <- (HM x y Hx Hy); exact Ey|exact Ec]. }
  destruct MM as (m & -> & Hm).
  set (l3 := retarget (pred_terms p d) (bk_start db) (bk_start cb) l2).
  assert (K3 : keeps l1 l3) by (eapply keeps_trans; [exact K2|apply retarget_keeps]).
  assert (S3 : shrinks (b_insts p) l3) by (eapply shrinks_trans; [exact S1|apply K3]).
  eexists. split; [reflexivity|]. cbn [b_insts b_blocks].
  assert (DEAD : forall i, In i (blk_insts db) -> ~ live_at l3 i).
  { intros i Hi HL. apply (kill_dead _ (b_insts p) i Hi). eapply shrinks_live; [apply K3|exact HL]. }
  split; [|split; [exact S3|split; [reflexivity|split; [|exact DEAD]]]].
  - constructor; cbn.
    + apply insert_key_downward; [exact RD|lia].
    + intros i x Hx Dx Fx. cbn in *. destruct (proj2 S3 i x Hx) as (x0 & Hx0 & _ & _ & F0 & D0). apply Hm.
      * intros ->. apply (DEAD _ Td). exists x. auto.
      * apply (RM i x0 Hx0); [|congruence]. destruct (is_dead x0); [|reflexivity]. rewrite D0 in Dx by reflexivity. discriminate.
    + intros k v Hin HL. cbn in *. apply insert_key_in in Hin as [[-> ->]|Hin]; [exact (DEAD _ Sd HL)|].
      apply (RK k v Hin). eapply shrinks_live; eauto.
    + intros k v x y Hin Hx Hy. cbn in *. destruct (proj2 S3 _ _ Hx) as (x0 & Hx0 & Ox & _). destruct (proj2 S3 _ _ Hy) as (y0 & Hy0 & Oy & _).
      apply insert_key_in in Hin as [[-> ->]|Hin]; [rewrite Ox, Oy; apply (HO _ _ Hy0 Hx0)|]. rewrite Ox, Oy. eapply RH; eauto.
    + apply insert_key_nodup, RN.
  - intros i Hi HL. apply (proj2 K3). apply kill_live; assumption.
Qed.

Lemma key_head p k a b bla blb : wf_blocks p -> nth_error (b_blocks p) a = Some bla -> nth_error (b_blocks p) b = Some blb ->
  block_key p bla = Some k -> block_key p blb = Some k ->
  (forall x y, nth_error (b_insts p) (bk_start bla) = Some x -> nth_error (b_insts p) (bk_start blb) = Some y -> d_op y = d_op x) /\
  (forall x y, nth_error (b_insts p) (terminator bla) = Some x -> nth_error (b_insts p) (terminator blb) = Some y -> f_multi (d_flags y) = f_multi (d_flags x)).
Proof.
  intros W Ha Hb Ka Kb.
  destruct (block_key_spec _ _ _ Ka) as (ta & fa & Ta & _ & _ & _ & _ & _ & Pa & _ & _ & Ma).
  destruct (block_key_spec _ _ _ Kb) as (tb & fb & Tb & _ & _ & _ & _ & _ & Pb & _ & _ & Mb).
  split; [|intros x y Hx Hy; congruence].
  intros x y Hx Hy. assert (E : block_fingerprint (b_insts p) bla = block_fingerprint (b_insts p) blb) by congruence.
  pose proof (wf_block _ _ _ W Ha) as Ba. pose proof (wf_block _ _ _ W Hb) as Bb.
  unfold block_fingerprint, blk_insts in E.
  replace (bk_end bla - bk_start bla)%nat with (S (bk_end bla - bk_start bla - 1)) in E by lia.
  replace (bk_end blb - bk_start blb)%nat with (S (bk_end blb - bk_start blb - 1)) in E by lia.
  cbn [seq flat_map] in E. rewrite Hx, Hy in E. unfold inst_print in E. cbn [app] in E. congruence.
Qed.

(** The part of a round that is still to do: [bs] are the blocks not yet handled. *)
Record midway (p0 p : bc) (bs : list nat) : Prop := {
  mw_inv : rinv p;
  mw_blocks : b_blocks p = b_blocks p0;
  mw_shrinks : shrinks (b_insts p0) (b_insts p);
  mw_live : forall b bl, In b bs -> nth_error (b_blocks p0) b = Some bl -> live_at (b_insts p) (terminator bl)
}.
Lemma shrinks_nth l l' i x' : shrinks l l' -> nth_error l' i = Some x' -> exists x, nth_error l i = Some x /\ d_op x' = d_op x /\ f_multi (d_flags x') = f_multi (d_flags x).
Proof. intros [_ P] H. destruct (P i x' H) as (x & Hx & A & _ & B & _). eauto. Qed.

Lemma merge_dups_shrinks cb : forall ds p p', merge_dups cb p ds = Some p' -> shrinks (b_insts p) (b_insts p').
Proof.
  induction ds as [|x ds IH]; intros p1 p' E'; cbn in E'; [injection E' as <-; apply shrinks_refl|].
  destruct (merge_dup cb p1 x) as [p2|] eqn:E; [|discriminate]. specialize (IH p2 _ E'). eapply shrinks_trans; [|exact IH].
  unfold merge_dup in E. destruct (nth_error (b_blocks p1) x) as [xb|]; [|discriminate].
  destruct (merge_multi _ _ _ _); [|discriminate]. injection E as <-. cbn.
  eapply shrinks_trans; [|apply retarget_keeps]. eapply shrinks_trans; [apply kill_shrinks|].
  destruct (_ && _ && _); [|apply shrinks_refl]. apply shrinks_upd. intros y. repeat split; auto.
Qed.
Lemma merge_dups_ok p0 k c cb : wf_blocks p0 -> nth_error (b_blocks p0) c = Some cb -> block_key p0 cb = Some k ->
  forall ds p rest, NoDup (c :: ds ++ rest) -> (forall d, In d ds -> (c < d)%nat /\ exists db, nth_error (b_blocks p0) d = Some db /\ block_key p0 db = Some k) ->
    midway p0 p (c :: ds ++ rest) ->
    exists p', merge_dups cb p ds = Some p' /\ midway p0 p' (c :: rest) /\
      (forall d db, In d ds -> nth_error (b_blocks p0) d = Some db -> ~ live_at (b_insts p') (bk_start db)).
Proof.
  intros W Hc Kc. induction ds as [|d ds IH]; intros p rest ND HD MW; cbn [merge_dups app] in *.
  - exists p. split; [reflexivity|]. split; [exact MW|]. intros d db [].
  - destruct (HD d (or_introl eq_refl)) as (LT & db & Hd & Kd). pose proof MW as [RI BL SH LV].
    assert (W' : wf_blocks p) by (unfold wf_blocks; rewrite BL, (proj1 SH); exact W).
    destruct (key_head _ _ _ _ _ _ W Hc Hd Kc Kd) as [HO HM].
    destruct (merge_dup_ok p c cb d db RI W') as (p1 & E1 & R1 & S1 & B1 & L1 & D1); rewrite ?BL; auto.
    { apply (LV c cb); [left; reflexivity|exact Hc]. }
    { intros x y Hx Hy. destruct (shrinks_nth _ _ _ _ SH Hx) as (x0 & Hx0 & -> & _). destruct (shrinks_nth _ _ _ _ SH Hy) as (y0 & Hy0 & -> & _). eauto. }
    { intros x y Hx Hy. destruct (shrinks_nth _ _ _ _ SH Hx) as (x0 & Hx0 & _ & ->). destruct (shrinks_nth _ _ _ _ SH Hy) as (y0 & Hy0 & _ & ->). eauto. }
    rewrite E1. assert (Nd : ~ In d (c :: ds ++ rest)).
    { intros [X|X]; [lia|]. apply NoDup_cons_iff in ND as [_ ND]. apply NoDup_cons_iff in ND as [ND _]. auto. }
    destruct (IH p1 rest) as (p' & E' & M' & D').
    + apply NoDup_cons_iff in ND as [N1 N2]. apply NoDup_cons_iff in N2 as [_ N2]. apply NoDup_cons; [|exact N2]. intros X. apply N1. right. exact X.
    + intros e He. apply HD. right. exact He.
    + constructor; [exact R1|congruence|eapply shrinks_trans; eauto|].
      intros b bl Hb Hbl. apply L1.
      * intros X. assert (b = d); [|subst b; exact (Nd Hb)]. eapply (wf_disjoint p0 b d bl db); eauto. apply (term_in p0 b bl W Hbl).
      * apply (LV b bl); [|exact Hbl]. destruct Hb as [Hb|Hb]; [left; exact Hb|right; right; exact Hb].
    + exists p'. split; [exact E'|]. split; [exact M'|]. intros e eb [<- |He] Heb; [|eauto].
      intros HL. assert (eb = db) by congruence. subst eb. apply (D1 (bk_start db)); [apply (term_in p0 d db W Hd)|].
      eapply shrinks_live; [eapply merge_dups_shrinks; exact E'|exact HL].
Qed.

Lemma group_sorted p g : In g (groups p) -> match g with [] => False | c :: ds => NoDup g /\ forall d, In d ds -> (c < d)%nat end.
Proof.
  intros H. destruct (groups_ok p g H) as (k & NE & SS & _). destruct g as [|c ds]; [congruence|]. inversion SS as [|? ? S1 S2]; subst.
  rewrite Forall_forall in S2. split; [|exact S2]. clear - SS. induction SS as [|a l SS IH F]; constructor; [|exact IH].
  rewrite Forall_forall in F. intros X. specialize (F _ X). lia.
Qed.
Lemma midway_sub p0 p bs bs' : incl bs' bs -> midway p0 p bs -> midway p0 p bs'.
Proof. intros I [A B C D]. constructor; auto. intros b bl Hb. apply D. auto. Qed.
Lemma NoDup_app_r {A} (l1 l2 : list A) : NoDup (l1 ++ l2) -> NoDup l2.
Proof. induction l1 as [|x l1 IH]; [auto|]. cbn. rewrite NoDup_cons_iff. tauto. Qed.

Lemma merge_group_ok p0 local g p rest : wf_blocks p0 -> In g (groups p0) -> NoDup (g ++ rest) -> midway p0 p (g ++ rest) ->
  exists p', merge_group local p g = Some p' /\ midway p0 p' rest /\
    ((2 <= length g)%nat -> exists d db, nth_error (b_blocks p0) d = Some db /\ ~ live_at (b_insts p') (bk_start db)) /\
    ((length g <= 1)%nat -> b_insts p' = b_insts p).
Proof.
  intros W Hg ND MW. pose proof (group_sorted p0 g Hg) as GS. destruct (groups_ok p0 g Hg) as (k & _ & _ & G).
  destruct g as [|c [|d ds]]; [destruct GS|..].
  - exists p. split; [reflexivity|]. split; [eapply midway_sub; [|exact MW]; intros x Hx; right; exact Hx|]. split; [cbn; lia|reflexivity].
  - destruct GS as [_ LT]. destruct (G c (or_introl eq_refl)) as (_ & cb & Hc & Kc). unfold merge_group.
    pose proof MW as [RI BL SH LV]. rewrite BL, Hc.
    destruct (merge_dups_ok p0 k c cb W Hc Kc (d :: ds) (with_snaps p (restore_from (b_snaps p) (blk_insts cb) local) (b_used p)) rest) as (p' & E' & M' & D').
    + exact ND.
    + intros e He. split; [apply LT; exact He|]. destruct (G e (or_intror He)) as (_ & X). exact X.
    + constructor; [|exact BL|exact SH|exact LV]. destruct RI. constructor; assumption.
    + exists p'. split; [exact E'|]. split; [eapply midway_sub; [|exact M']; intros x Hx; right; exact Hx|].
      split; [|cbn; lia]. intros _. destruct (G d (or_intror (or_introl eq_refl))) as (_ & db & Hd & _). exists d, db. split; [exact Hd|].
      apply (D' d db); [left; reflexivity|exact Hd].
Qed.
Lemma merge_groups_shrinks local : forall gs p p', merge_groups local p gs = Some p' -> shrinks (b_insts p) (b_insts p').
Proof.
  induction gs as [|g gs IH]; intros p p' E; cbn in E; [injection E as <-; apply shrinks_refl|].
  destruct (merge_group local p g) as [p1|] eqn:E1; [|discriminate]. eapply shrinks_trans; [|eapply IH; exact E].
  unfold merge_group in E1. destruct g as [|c [|d ds]]; try (injection E1 as <-; apply shrinks_refl).
  destruct (nth_error (b_blocks p) c); [|discriminate]. apply merge_dups_shrinks in E1. exact E1.
Qed.
Lemma merge_groups_ok p0 local : wf_blocks p0 -> (forall b bl, nth_error (b_blocks p0) b = Some bl -> live_at (b_insts p0) (bk_start bl)) ->
  forall gs p, incl gs (groups p0) -> NoDup (concat gs) -> midway p0 p (concat gs) ->
  exists p', merge_groups local p gs = Some p' /\ rinv p' /\ b_blocks p' = b_blocks p0 /\ shrinks (b_insts p0) (b_insts p') /\
    (deduped gs <> 0%nat -> (alive (b_insts p') < alive (b_insts p0))%nat).
Proof.
  intros W ST. induction gs as [|g gs IH]; intros p IN ND MW; cbn [merge_groups concat] in *.
  - destruct MW as [RI BL SH LV]. exists p. split; [reflexivity|]. split; [exact RI|]. split; [exact BL|]. split; [exact SH|]. cbn. congruence.
  - destruct (merge_group_ok p0 local g p (concat gs) W (IN g (or_introl eq_refl)) ND MW) as (p1 & E1 & M1 & D1 & S1). rewrite E1.
    destruct (IH p1) as (p' & E' & R' & B' & S' & A').
    + intros x Hx. apply IN. right. exact Hx.
    + eapply NoDup_app_r; exact ND.
    + exact M1.
    + exists p'. split; [exact E'|]. split; [exact R'|]. split; [exact B'|]. split; [exact S'|]. intros N.
      destruct (Nat.le_gt_cases (length g) 1) as [L1|L1].
      * apply A'. intros X. apply N. cbn [deduped fold_right]. fold (deduped gs). lia.
      * destruct (D1 ltac:(lia)) as (d & db & Hd & ND'). apply (proj2 (shrinks_alive _ _ S') (bk_start db)); [eapply ST; eauto|].
        intros HL. apply ND'. eapply shrinks_live; [eapply merge_groups_shrinks; exact E'|exact HL].
Qed.

(** Every block is in at most one group. *)
Lemma push_group_perm k b : forall m, Permutation (concat (map snd (push_group k b m))) (b :: concat (map snd m)).
Proof.
  induction m as [|[k0 g0] m IH]; cbn; [reflexivity|]. destruct (key_eqb k0 k); cbn.
  - rewrite <- app_assoc. symmetry. apply Permutation_middle.
  - etransitivity; [apply Permutation_app_head, IH|]. symmetry. apply Permutation_middle.
Qed.
Lemma group_from_nodup p : forall l b m, NoDup (concat (map snd m)) -> (forall x, In x (concat (map snd m)) -> (x < b)%nat) ->
  NoDup (concat (map snd (group_from p b l m))).
Proof.
  induction l as [|bl l IH]; intros b m ND LT; cbn; [exact ND|]. apply IH; destruct (block_key p bl) as [k|].
  - eapply Permutation_NoDup; [symmetry; apply push_group_perm|]. constructor; [|exact ND]. intros X. specialize (LT _ X). lia.
  - exact ND.
  - intros x Hx. apply (Permutation_in _ (push_group_perm k b m)) in Hx as [<- |Hx]; [lia|]. specialize (LT _ Hx). lia.
  - intros x Hx. specialize (LT _ Hx). lia.
Qed.
Lemma groups_nodup p : NoDup (concat (groups p)).
Proof. apply group_from_nodup; [constructor|intros x []]. Qed.
Lemma concat_perm {A} (l l' : list (list A)) : Permutation l l' -> Permutation (concat l) (concat l').
Proof.
  induction 1; cbn; [reflexivity|apply Permutation_app_head; assumption| |etransitivity; eauto].
  rewrite !app_assoc. apply Permutation_app_tail, Permutation_app_comm.
Qed.

(** ** Refreshing the CFG. *)
Lemma set_reachable_ok r : downward r -> forall ts l, set_reachable r ts l <> None.
Proof. intros D. induction ts as [|t ts IH]; intros l; cbn; [discriminate|]. destruct (root_total r t D) as (u & -> & _). apply IH. Qed.
Lemma recompute_ok p : downward (b_redirects p) -> recompute_reachable p <> None.
Proof.
  intros D. unfold recompute_reachable. destruct (set_reachable _ _ _) eqn:E; [discriminate|]. exfalso. eapply set_reachable_ok; eauto.
Qed.
Lemma mark_dead_code_ok fuel : forall p, downward (b_redirects p) -> (live_jumps (b_insts p) <= fuel)%nat -> mark_dead_code fuel p <> None.
Proof.
  induction fuel as [|f IH]; intros p RD Hl; cbn [mark_dead_code];
    destruct (mark_once (b_dyn p) None 0 (b_insts p)) as [l b] eqn:Em;
    destruct (mark_once_jumps _ _ _ _ _ _ Em) as [H1 H2]; destruct b; try discriminate.
  - specialize (H2 eq_refl). lia.
  - specialize (H2 eq_refl).
    destruct (recompute_reachable _) as [p2|] eqn:Er; [|exfalso; revert Er; apply recompute_ok; exact RD].
    destruct (recompute_reachable_shape _ _ Er) as (L & P & M & R0 & D & S & B & U). cbn in *.
    apply IH; [rewrite R0; exact RD|]. rewrite (live_jumps_upto _ _ L P). lia.
Qed.
Lemma upto_shrinks l l' : length l' = length l -> (forall k d', nth_error l' k = Some d' -> exists d, nth_error l k = Some d /\ upto_reach d d') -> shrinks l l'.
Proof.
  intros L P. split; [exact L|]. intros k d' H. destruct (P k d' H) as (d & Hd & U). exists d. split; [exact Hd|].
  destruct U as [-> | [b ->]]; repeat split; auto.
Qed.
Lemma marked_shrinks l l' : marked_of l l' -> shrinks l l'.
Proof.
  intros [L P]. split; [exact L|]. intros k d' H. destruct (P k d' H) as (d & Hd & U). exists d. split; [exact Hd|].
  destruct U as [-> | ->]; repeat split; auto.
Qed.
Lemma mark_dead_code_shape fuel : forall p p', mark_dead_code fuel p = Some p' ->
  shrinks (b_insts p) (b_insts p') /\ b_multi p' = b_multi p /\ b_redirects p' = b_redirects p.
Proof.
  induction fuel as [|f IH]; intros p p' E; cbn [mark_dead_code] in E;
    destruct (mark_once (b_dyn p) None 0 (b_insts p)) as [l b] eqn:Em;
    pose proof (marked_shrinks _ _ (mark_once_marked _ _ _ _ Em)) as S1; destruct b; try discriminate.
  - injection E as <-. auto.
  - destruct (recompute_reachable _) as [p2|] eqn:Er; [|discriminate].
    destruct (recompute_reachable_shape _ _ Er) as (L & P & M & R0 & _). cbn in *.
    destruct (IH _ _ E) as (A & B & C). split; [|split; congruence].
    eapply shrinks_trans; [exact S1|]. eapply shrinks_trans; [|exact A]. apply upto_shrinks; assumption.
  - injection E as <-. auto.
Qed.

(** After [compress_redirects] one hop leads to the end of the chain. *)
Definition flat (r : list (nat * nat)) : Prop := forall k v, lookup k r = Some v -> lookup v r = None.
Lemma flat_root r t : flat r -> ends r t (match lookup t r with Some v => v | None => t end).
Proof.
  intros F. destruct (lookup t r) as [v|] eqn:E; [|constructor; exact E]. eapply ends_next; [exact E|]. constructor. eapply F; eauto.
Qed.

Lemma in_lookup k v r : In (k, v) r -> NoDup (map fst r) -> lookup k r = Some v.
Proof.
  induction r as [|[a b] r IH]; [intros []|]. cbn. intros [E|H] N; apply NoDup_cons_iff in N as [N1 N2].
  - injection E as -> ->. rewrite Nat.eqb_refl. reflexivity.
  - destruct (Nat.eqb_spec a k) as [-> |]; [|auto]. exfalso. apply N1. apply in_map_iff. exists (k, v). auto.
Qed.
Lemma ends_head p t u : same_head p -> downward (b_redirects p) -> ends (b_redirects p) t u -> forall d e, nth_error (b_insts p) t = Some d ->
  nth_error (b_insts p) u = Some e -> d_op d = d_op e.
Proof.
  intros SH D E. induction E as [t H|t n u H E IH]; intros d e Hd He; [congruence|].
  destruct (nth_some (b_insts p) n) as [x Hx].
  - apply nth_lt in Hd. pose proof (D _ _ (lookup_in _ _ _ H)). lia.
  - rewrite (SH t n d x (lookup_in _ _ _ H) Hd Hx). eauto.
Qed.
Lemma rinv_refresh p : rinv p -> exists p', refresh_cfg p = Some p' /\ rinv p' /\ shrinks (b_insts p) (b_insts p') /\
  map fst (b_redirects p') = map fst (b_redirects p) /\ flat (b_redirects p') /\
  (forall t u, ends (b_redirects p) t u <-> ends (b_redirects p') t u) /\
  b_blocks p' = map (fun r => mkBlk (fst r) (snd r) (block_succs p' (ranges (b_dyn p') (b_insts p')) r)) (ranges (b_dyn p') (b_insts p')).
Proof.
  intros RI. pose proof (ri_keys _ RI) as ND. unfold refresh_cfg.
  destruct (recompute_reachable (recompute_dyn p)) as [p1|] eqn:E1; [|exfalso; revert E1; apply recompute_ok; apply RI].
  destruct (recompute_reachable_shape _ _ E1) as (L & P & M & R0 & _). cbn in *.
  assert (D1 : downward (b_redirects p1)) by (rewrite R0; apply RI).
  destruct (mark_dead_code (length (b_insts p1)) p1) as [p2|] eqn:E2; [|exfalso; revert E2; apply mark_dead_code_ok; [exact D1|apply live_jumps_le]].
  destruct (mark_dead_code_shape _ _ _ E2) as (S2 & M2 & R2).
  assert (SH : shrinks (b_insts p) (b_insts p2)) by (eapply shrinks_trans; [apply upto_shrinks; eassumption|exact S2]).
  assert (R20 : b_redirects p2 = b_redirects p) by congruence. assert (M20 : b_multi p2 = b_multi p) by congruence.
  unfold compress_redirects. rewrite R20. set (r := b_redirects p) in *.
  destruct (compress_spec (map fst r) r (ri_down _ RI)) as (r' & EC & DC & KC & SC & VC & _).
  { intros k Hk X. apply lookup_none in X. auto. }
  rewrite EC. eexists. split; [reflexivity|].
  assert (KEYS : forall k v, lookup k r' = Some v -> ends r k v).
  { intros k v H. apply VC; [exact H|]. left. rewrite <- KC. destruct (in_dec Nat.eq_dec k (map fst r')) as [I|I]; [exact I|]. apply lookup_none in I. congruence. }
  cbn. split; [|split; [exact SH|split; [exact KC|split; [|split; [exact SC|reflexivity]]]]].
  - constructor; cbn; [exact DC|..].
    + intros i d Hi Dd Fm. cbn in *. destruct (proj2 SH i d Hi) as (d0 & H0 & _ & _ & F0 & X). rewrite M20. eapply (ri_multi _ RI); [exact H0| |congruence].
      destruct (is_dead d0); [rewrite X in Dd by reflexivity; discriminate|reflexivity].
    + intros k v Hin HL. cbn in *. assert (Ik : In k (map fst r)) by (rewrite <- KC; apply in_map_iff; exists (k, v); auto).
      apply in_map_iff in Ik as ([k0 v0] & <- & Hin0). apply (ri_dead _ RI k0 v0 Hin0). eapply shrinks_live; eauto.
    + intros k v d e Hin Hd He. cbn in *. assert (Hl : lookup k r' = Some v) by (apply in_lookup; [exact Hin|rewrite KC; exact ND]).
      destruct (shrinks_nth _ _ _ _ SH Hd) as (d0 & Hd0 & -> & _). destruct (shrinks_nth _ _ _ _ SH He) as (e0 & He0 & -> & _).
      eapply (ends_head p); [apply RI|apply RI| |exact Hd0|exact He0]. apply KEYS. exact Hl.
    + rewrite KC. exact ND.
  - intros k v H. pose proof (ends_lookup_none _ _ _ (KEYS _ _ H)) as X. apply lookup_none. rewrite KC. apply lookup_none. exact X.
Qed.

(** ** The whole pass. *)
Definition rebuilt (p : bc) : Prop :=
  b_blocks p = map (fun r => mkBlk (fst r) (snd r) (block_succs p (ranges (b_dyn p) (b_insts p)) r)) (ranges (b_dyn p) (b_insts p)).
Lemma rebuilt_wf p : rebuilt p -> wf_blocks p /\ forall b bl, nth_error (b_blocks p) b = Some bl ->
  live_at (b_insts p) (bk_start bl) /\ live_at (b_insts p) (terminator bl).
Proof.
  intros E. destruct (ranges_basic (b_dyn p) (b_insts p)) as [W L]. unfold wf_blocks. rewrite E. split.
  - rewrite map_map. erewrite map_ext; [rewrite map_id; exact W|]. intros [s e]. reflexivity.
  - intros b bl H. rewrite nth_error_map in H. destruct (nth_error (ranges _ _) b) as [r|] eqn:Er; [|discriminate].
    apply (f_equal (fun o => match o with Some x => x | None => bl end)) in H. cbn in H. subst bl. cbn. apply L. eapply nth_error_In; eauto.
Qed.
Lemma deduped_perm a b : Permutation a b -> deduped a = deduped b.
Proof. unfold deduped. induction 1; cbn [fold_right] in *; lia. Qed.
Lemma dedup_once_ok ord local p : (forall gs, Permutation (ord gs) gs) -> rinv p -> rebuilt p ->
  exists p' n, dedup_once ord local p = Some (p', n) /\ rinv p' /\ shrinks (b_insts p) (b_insts p') /\
    (n <> 0%nat -> (alive (b_insts p') < alive (b_insts p))%nat) /\ (n = 0%nat -> deduped (groups p) = 0%nat).
Proof.
  intros PO RI RB. destruct (rebuilt_wf p RB) as [W L]. unfold dedup_once.
  destruct (merge_groups_ok p local W (fun b bl H => proj1 (L b bl H)) (ord (groups p)) p) as (p' & E & R' & _ & S' & A').
  - intros g Hg. eapply Permutation_in; [apply PO|exact Hg].
  - eapply Permutation_NoDup; [symmetry; apply concat_perm, PO|apply groups_nodup].
  - constructor; [exact RI|reflexivity|apply shrinks_refl|]. intros b bl _ H. apply (L b bl H).
  - rewrite E. exists p', (deduped (ord (groups p))). split; [reflexivity|]. split; [exact R'|]. split; [exact S'|]. split; [exact A'|].
    intros Z0. rewrite <- Z0. symmetry. apply deduped_perm, PO.
Qed.
Lemma dedup_blocks_ok ord local : (forall gs, Permutation (ord gs) gs) -> forall fuel p, rinv p -> rebuilt p -> (alive (b_insts p) <= fuel)%nat ->
  exists p', dedup_blocks ord fuel local p = Some p' /\ rinv p' /\ shrinks (b_insts p) (b_insts p').
Proof.
  intros PO. induction fuel as [|f IH]; intros p RI RB AL; cbn [dedup_blocks];
    destruct (dedup_once_ok ord local p PO RI RB) as (p1 & n & -> & R1 & S1 & A1 & _); destruct (Nat.eqb_spec n 0) as [-> |N].
  - exists p1. auto.
  - specialize (A1 N). lia.
  - exists p1. auto.
  - specialize (A1 N). destruct (rinv_refresh p1 R1) as (p2 & -> & R2 & S2 & _ & _ & _ & B2).
    destruct (IH p2 R2 B2) as (p' & E' & R' & S').
    + pose proof (proj1 (shrinks_alive _ _ S2)). lia.
    + exists p'. split; [exact E'|]. split; [exact R'|]. eapply shrinks_trans; [exact S1|]. eapply shrinks_trans; eauto.
Qed.

(** ** Before the pass there are no redirects and the target lists are complete. *)
Definition multi_all (p : bc) : Prop := forall i d, nth_error (b_insts p) i = Some d -> f_multi (d_flags d) = true -> b_multi p i <> None.
Lemma multi_all_shrinks p p' : multi_all p -> shrinks (b_insts p) (b_insts p') -> b_multi p' = b_multi p -> multi_all p'.
Proof. intros MA [_ P] E i d Hi Fm. destruct (P i d Hi) as (d0 & H0 & _ & _ & F0 & _). rewrite E. eapply MA; [exact H0|congruence]. Qed.
Lemma commit_one_multi bot i r d m : (f_multi (d_flags d) = true -> m <> None) ->
  forall d' m', commit_one bot i r d m = (d', m') -> f_multi (d_flags d') = true -> m' <> None.
Proof.
  intros H d' m'. unfold commit_one. destruct (f_static (d_flags d) && negb (cond_known (j_cond r))); [intros E; injection E as <- <-; exact H|].
  destruct (j_target r); repeat match goal with |- context [match ?l with _ => _ end] => destruct l end; intros E; injection E as <- <-; cbn; intros F; try discriminate; auto.
Qed.
Lemma commit_multi rs p p' : commit_resolved rs p = Some p' -> multi_all p -> multi_all p'.
Proof.
  unfold commit_resolved. intros E MA. destruct (recompute_reachable_shape _ _ E) as (L & P & M & _).
  eapply multi_all_shrinks; [|apply upto_shrinks; eassumption|exact M]. clear E L P M p'.
  generalize (existsb (fun ir => is_top (snd ir)) rs). intros bot. revert p MA. induction rs as [|[i r] rs IH]; intros p MA; cbn [fold_left]; [exact MA|].
  apply IH. unfold commit_step. destruct (nth_error (b_insts p) i) as [d|] eqn:Hi; [|exact MA].
  destruct (commit_one bot i r d (b_multi p i)) as [d' m'] eqn:Ec. intros k e He Fe. cbn in *. rewrite nth_upd_nth in He.
  destruct (Nat.eqb_spec k i) as [-> |N].
  - rewrite Hi in He. cbn in He. injection He as <-. rewrite upd_same. eapply commit_one_multi; [|exact Ec|exact Fe]. intros F. eapply MA; eauto.
  - rewrite upd_other by exact N. eapply MA; eauto.
Qed.
Lemma shrinks_ops l : forall l', shrinks l l' -> map d_op l' = map d_op l.
Proof.
  induction l as [|d l IH]; intros [|d' l'] [L P]; try discriminate; [reflexivity|]. cbn. destruct (P 0%nat d' eq_refl) as (d0 & E & O & _).
  injection E as <-. f_equal; [exact O|]. apply IH. split; [cbn in L; congruence|]. intros k. apply (P (S k)).
Qed.
Definition start_ok (p : bc) : Prop := b_redirects p = [] /\ multi_all p.
Lemma start_rinv p : start_ok p -> rinv p.
Proof.
  intros [R M]. constructor; unfold downward, key_dead, same_head; rewrite ?R; try (intros; contradiction); [|constructor].
  intros i d H _ F. eapply M; eauto.
Qed.
Lemma start_refresh p p' : start_ok p -> refresh_cfg p = Some p' -> start_ok p' /\ rebuilt p' /\ map d_op (b_insts p') = map d_op (b_insts p).
Proof.
  intros SO E. destruct (rinv_refresh p (start_rinv p SO)) as (p1 & E1 & _ & S1 & K1 & _ & _ & B1). assert (p1 = p') by congruence. subst p1.
  split; [|split; [exact B1|apply shrinks_ops, S1]]. destruct SO as [R M]. rewrite R in K1. split; [destruct (b_redirects p'); [reflexivity|discriminate]|].
  eapply multi_all_shrinks; [exact M|exact S1|]. unfold refresh_cfg in E.
  destruct (recompute_reachable _) as [p1|] eqn:Ea; [|discriminate]. destruct (recompute_reachable_shape _ _ Ea) as (_ & _ & M1 & _).
  destruct (mark_dead_code _ p1) as [p2|] eqn:Eb; [|discriminate]. destruct (mark_dead_code_shape _ _ _ Eb) as (_ & M2 & _).
  unfold compress_redirects in E. destruct (compress _ _); [|discriminate]. injection E as <-. cbn in *. congruence.
Qed.
Lemma upd_ops i (d d' : idata) : forall l, nth_error l i = Some d -> d_op d' = d_op d -> map d_op (upd_nth i (fun _ => d') l) = map d_op l.
Proof. induction i as [|i IH]; intros [|x l] H E; try discriminate; cbn in *; [congruence|]. f_equal. auto. Qed.
Lemma commit_one_op bot i r d m d' m' : commit_one bot i r d m = (d', m') -> d_op d' = d_op d.
Proof.
  unfold commit_one. destruct (f_static (d_flags d) && negb (cond_known (j_cond r))); [intros E; injection E as <- <-; reflexivity|].
  destruct (j_target r); repeat match goal with |- context [match ?l with _ => _ end] => destruct l end; intros E; injection E as <- <-; reflexivity.
Qed.
Lemma commit_ops rs p p' : commit_resolved rs p = Some p' -> map d_op (b_insts p') = map d_op (b_insts p).
Proof.
  unfold commit_resolved. intros E. destruct (recompute_reachable_shape _ _ E) as (L & P & _). rewrite (shrinks_ops _ _ (upto_shrinks _ _ L P)). clear E L P.
  generalize (existsb (fun ir => is_top (snd ir)) rs). intros bot. revert p. induction rs as [|[i r] rs IH]; intros p; cbn [fold_left]; [reflexivity|].
  rewrite IH. unfold commit_step. destruct (nth_error (b_insts p) i) as [d|] eqn:Hi; [|reflexivity]. destruct (commit_one bot i r d (b_multi p i)) as [d' m'] eqn:Ec. cbn.
  eapply upd_ops; [exact Hi|]. eapply commit_one_op; eauto.
Qed.
Lemma local_start env p : start_ok p -> forall p', analyze_local env p = Some p' -> start_ok p' /\ rebuilt p' /\ map d_op (b_insts p') = map d_op (b_insts p).
Proof.
  intros SO p' E. unfold analyze_local in E. destruct (refresh_cfg p) as [p1|] eqn:E1; [|discriminate].
  destruct (start_refresh _ _ SO E1) as (SO1 & _ & L1). destruct (block_analysis_local env p1) as [p2|] eqn:E2; [|discriminate].
  unfold block_analysis_local in E2. destruct (fold_left (local_block env p1) (b_blocks p1) ([], (b_snaps p1, b_used p1))) as [rs [sn used]].
  destruct (commit_resolved rs (with_snaps p1 sn used)) as [p3|] eqn:E3; [|discriminate]. cbn in E2. injection E2 as <-.
  destruct (start_refresh (recompute_dyn p3) p') as (A & B & C).
  - split; cbn; [rewrite (commit_redirects _ _ _ E3); apply SO1|]. intros i d. apply (commit_multi _ _ _ E3). apply SO1.
  - exact E.
  - split; [exact A|]. split; [exact B|]. rewrite C. cbn. rewrite (commit_ops _ _ _ E3). cbn. congruence.
Qed.
Lemma global_start env p : start_ok p -> forall p', analyze_global env p = Some p' -> start_ok p' /\ rebuilt p' /\ map d_op (b_insts p') = map d_op (b_insts p).
Proof.
  intros SO p' E. unfold analyze_global in E. destruct (block_analysis env p (b_snaps p)) as [p1|] eqn:E1; [|discriminate].
  pose proof (block_analysis_redirects _ _ _ _ (proj1 SO) E1) as R1.
  assert (X : multi_all p1 /\ map d_op (b_insts p1) = map d_op (b_insts p)).
  { unfold block_analysis in E1. destruct (run_abstract_interp env p (b_snaps p)) as [[[rs sn] used]|]; [|discriminate].
    destruct (_ || _).
    - destruct (commit_resolved rs (with_snaps p sn used)) eqn:E3; [|discriminate]. injection E1 as <-. split.
      + intros i d. apply (commit_multi _ _ _ E3). apply SO.
      + apply (commit_ops _ _ _ E3).
    - injection E1 as <-. split; [apply SO|reflexivity]. }
  destruct (start_refresh p1 p') as (A & B & C); [split; [exact R1|apply X]|exact E|].
  split; [exact A|]. split; [exact B|]. rewrite C. apply X.
Qed.
Lemma initial_start prog : raw prog -> start_ok (initial prog).
Proof.
  intros RAW. split; [reflexivity|]. intros i d Hi F. destruct (RAW i d Hi) as (_ & _ & X & _). cbn in *. congruence.
Qed.

Lemma analyze_dedup_ok ord env prog : (forall gs, Permutation (ord gs) gs) -> raw prog -> analyze env prog <> None ->
  exists p, analyze_dedup ord env prog = Some p /\ rinv p /\ flat (b_redirects p) /\ map d_op (b_insts p) = map d_op prog.
Proof.
  intros PO RAW T. unfold analyze_dedup. unfold analyze in T.
  destruct (analyze_local env (initial prog)) as [pl|] eqn:E1; [|congruence].
  destruct (local_start _ _ (initial_start _ RAW) _ E1) as (S1 & _ & L1).
  destruct (analyze_global env pl) as [p|] eqn:E2; [|congruence].
  destruct (global_start _ _ S1 _ E2) as (S2 & B2 & L2). cbn in L1.
  destruct (dedup_blocks_ok ord (b_snaps pl) PO (length prog) p (start_rinv _ S2) B2) as (p' & -> & R' & SH').
  - pose proof (alive_le (b_insts p)) as A. assert (E : length (map d_op (b_insts p)) = length (map d_op prog)) by congruence. rewrite !map_length in E. lia.
  - destruct (rinv_refresh p' R') as (p2 & -> & R2 & S3 & _ & F2 & _). exists p2. split; [reflexivity|]. split; [exact R2|]. split; [exact F2|].
    rewrite (shrinks_ops _ _ S3), (shrinks_ops _ _ SH'). congruence.
Qed.
Lemma analyze_dedup_shrinks ord env prog p : (forall gs, Permutation (ord gs) gs) -> raw prog -> analyze_dedup ord env prog = Some p ->
  exists q, analyze env prog = Some q /\ shrinks (b_insts q) (b_insts p).
Proof.
  intros PO RAW. unfold analyze_dedup, analyze.
  destruct (analyze_local env (initial prog)) as [pl|] eqn:E1; [|discriminate].
  destruct (local_start _ _ (initial_start _ RAW) _ E1) as (S1 & _ & L1).
  destruct (analyze_global env pl) as [q|] eqn:E2; [|discriminate].
  destruct (global_start _ _ S1 _ E2) as (S2 & B2 & L2). cbn in L1.
  destruct (dedup_blocks_ok ord (b_snaps pl) PO (length prog) q (start_rinv _ S2) B2) as (p' & -> & R' & SH').
  - pose proof (alive_le (b_insts q)) as A. assert (E : length (map d_op (b_insts q)) = length (map d_op prog)) by congruence. rewrite !map_length in E. lia.
  - destruct (rinv_refresh p' R') as (p2 & -> & R2 & S3 & _). intros E. assert (p2 = p) by congruence. subst p2. exists q. split; [reflexivity|eapply shrinks_trans; eassumption].
Qed.
