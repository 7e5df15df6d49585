(** The virtual stack represents the EVM stack. *)
From Coq Require Import FinFun.
From Verif Require Import VStackSpec.
Open Scope Z_scope.

(** ** Slot vectors *)
Lemma length_upd {A} (l : list A) n x : length (upd l n x) = length l.
Proof. revert n. induction l; destruct n; cbn; auto. Qed.
Lemma nth_upd {A} (l : list A) n x k d : (n < length l)%nat ->
  nth k (upd l n x) d = if (k =? n)%nat then x else nth k l d.
Proof.
  revert n k. induction l as [|a l IH]; intros n k H; cbn in H; [lia|].
  destruct n, k; cbn; auto. apply IH. lia.
Qed.

Definition cap (v : vstack) : Z := Z.of_nat (length (v_slots v)).
Definition inb (v : vstack) (o : Z) : Prop := v_base v <= o < v_base v + cap v.

Lemma idx_some v o i : vs_idx v o = Some i -> inb v o /\ i = Z.to_nat (o - v_base v) /\ (i < length (v_slots v))%nat.
Proof.
  unfold vs_idx, inb, cap. cbn zeta. destruct (_ && _) eqn:E; [|discriminate]. intros [= <-].
  apply andb_true_iff in E as [E1 E2]. apply Z.leb_le in E1. apply Z.ltb_lt in E2. lia.
Qed.
Lemma idx_inb v o : inb v o -> vs_idx v o = Some (Z.to_nat (o - v_base v)).
Proof.
  unfold vs_idx, inb, cap. cbn zeta. intros H. destruct (_ && _) eqn:E; [reflexivity|].
  apply andb_false_iff in E as [E|E]; [apply Z.leb_gt in E|apply Z.ltb_ge in E]; lia.
Qed.
Lemma idx_out v o : ~ inb v o -> vs_idx v o = None.
Proof. intros H. destruct (vs_idx v o) eqn:E; [|reflexivity]. apply idx_some in E. tauto. Qed.
Lemma slot_out v o : ~ inb v o -> vs_slot v o = None.
Proof. intros H. unfold vs_slot. rewrite idx_out; auto. Qed.
Lemma slot_some_inb v o s : vs_slot v o = Some s -> inb v o.
Proof. unfold vs_slot. destruct (vs_idx v o) eqn:E; [|discriminate]. intros _. now apply idx_some in E. Qed.

Lemma slot_upd v off i s t o : vs_idx v off = Some i ->
  vs_slot (mkVs (v_base v) t (upd (v_slots v) i s)) o = if o =? off then s else vs_slot v o.
Proof.
  intros E. destruct (idx_some _ _ _ E) as (B & -> & L). unfold vs_slot, vs_idx. cbn [v_base v_slots].
  rewrite length_upd. destruct (_ && _) eqn:F.
  - apply andb_true_iff in F as [F1 F2]. apply Z.leb_le in F1. apply Z.ltb_lt in F2.
    unfold inb, cap in B. rewrite nth_upd by lia. destruct (Z.eqb_spec o off) as [-> | N].
    + now rewrite Nat.eqb_refl.
    + destruct (Nat.eqb_spec (Z.to_nat (o - v_base v)) (Z.to_nat (off - v_base v))); [lia|reflexivity].
  - destruct (Z.eqb_spec o off) as [-> | N]; [|reflexivity].
    unfold inb, cap in B. apply andb_false_iff in F as [F|F]; [apply Z.leb_gt in F|apply Z.ltb_ge in F]; lia.
Qed.

Lemma set_at v off x : inb v off -> exists v', vs_set_at_offset v off x = Some v' /\
  v_base v' = v_base v /\ v_top v' = v_top v /\ cap v' = cap v /\
  forall o, vs_slot v' o = if o =? off then Some (Virtual x) else vs_slot v o.
Proof.
  intros B. unfold vs_set_at_offset. rewrite (idx_inb _ _ B). eexists; split; [reflexivity|]. cbn.
  unfold cap. cbn. rewrite length_upd. repeat split. intros o. now rewrite (slot_upd _ _ _ _ _ _ (idx_inb _ _ B)).
Qed.
Lemma push_slot_ok v s : inb v (v_top v) -> exists v', vs_push_slot v s = Some v' /\
  v_base v' = v_base v /\ v_top v' = v_top v + 1 /\ cap v' = cap v /\
  forall o, vs_slot v' o = if o =? v_top v then Some s else vs_slot v o.
Proof.
  intros B. unfold vs_push_slot. rewrite (idx_inb _ _ B). eexists; split; [reflexivity|]. cbn.
  unfold cap. cbn. rewrite length_upd. repeat split. intros o. now rewrite (slot_upd _ _ _ _ _ _ (idx_inb _ _ B)).
Qed.
Lemma push_mems_ok n : forall v, v_base v <= v_top v -> v_top v + Z.of_nat n <= v_base v + cap v ->
  exists v', vs_push_mems v n = Some v' /\
  v_base v' = v_base v /\ v_top v' = v_top v + Z.of_nat n /\ cap v' = cap v /\
  forall o, vs_slot v' o = if (v_top v <=? o) && (o <? v_top v + Z.of_nat n) then Some Materialized else vs_slot v o.
Proof.
  induction n as [|n IH]; intros v B C.
  - exists v. cbn. repeat split; try lia. intros o. destruct (_ && _) eqn:E; [|reflexivity].
    apply andb_true_iff in E as [E1 E2]. apply Z.leb_le in E1. apply Z.ltb_lt in E2. lia.
  - cbn [vs_push_mems]. unfold vs_push_mem.
    destruct (push_slot_ok v Materialized) as (v1 & -> & E1 & E2 & E3 & E4); [unfold inb; lia|].
    destruct (IH v1) as (v2 & -> & F1 & F2 & F3 & F4); [lia|lia|].
    exists v2. repeat split; try lia. intros o. rewrite F4, E4, E2.
    destruct (Z.leb_spec (v_top v + 1) o), (Z.ltb_spec o (v_top v + 1 + Z.of_nat n)),
      (Z.leb_spec (v_top v) o), (Z.ltb_spec o (v_top v + Z.of_nat (S n))), (Z.eqb_spec o (v_top v));
      cbn; try reflexivity; lia.
Qed.
Lemma drop_ok v n : v_base v <= v_top v - Z.of_nat n ->
  vs_drop_top v n = Some (mkVs (v_base v) (v_top v - Z.of_nat n) (v_slots v)).
Proof. intros H. unfold vs_drop_top. cbn zeta. now rewrite (proj2 (Z.leb_le _ _) H). Qed.

Lemma zrange_in a b x : In x (zrange a b) <-> a <= x < b.
Proof.
  unfold zrange. rewrite in_map_iff. split.
  - intros (k & <- & K). apply in_seq in K. lia.
  - intros H. exists (Z.to_nat (x - a)). split; [lia|]. apply in_seq. lia.
Qed.
Lemma zrange_nodup a b : NoDup (zrange a b).
Proof.
  unfold zrange. apply Injective_map_NoDup; [|apply seq_NoDup]. intros x y H. lia.
Qed.
Lemma zrange_snoc a b : a <= b -> zrange a (b + 1) = zrange a b ++ [b].
Proof.
  intros H. unfold zrange. replace (Z.to_nat (b + 1 - a)) with (S (Z.to_nat (b - a))) by lia.
  rewrite seq_S, map_app. cbn. f_equal. f_equal. lia.
Qed.

(** Marking. *)
Definition mat (s : option vslot) : option vslot := match s with Some _ => Some Materialized | None => None end.
Lemma mark1_ok v off : v_base (vs_mark1 v off) = v_base v /\ v_top (vs_mark1 v off) = v_top v /\
  cap (vs_mark1 v off) = cap v /\
  forall o, vs_slot (vs_mark1 v off) o = if o =? off then mat (vs_slot v o) else vs_slot v o.
Proof.
  unfold vs_mark1. destruct (vs_idx v off) as [i|] eqn:E.
  - destruct (vs_slot v off) as [s|] eqn:F.
    + cbn. unfold cap. cbn. rewrite length_upd. repeat split. intros o. rewrite (slot_upd _ _ _ _ _ _ E).
      destruct (Z.eqb_spec o off) as [-> | N]; [|reflexivity]. now rewrite F.
    + repeat split. intros o. destruct (Z.eqb_spec o off) as [-> | N]; [|reflexivity]. now rewrite F.
  - repeat split. intros o. destruct (Z.eqb_spec o off) as [-> | N]; [|reflexivity].
    unfold vs_slot. now rewrite E.
Qed.
Lemma mark_list l : forall v, v_base (fold_left vs_mark1 l v) = v_base v /\ v_top (fold_left vs_mark1 l v) = v_top v /\
  cap (fold_left vs_mark1 l v) = cap v /\
  forall o, vs_slot (fold_left vs_mark1 l v) o = if in_dec Z.eq_dec o l then mat (vs_slot v o) else vs_slot v o.
Proof.
  induction l as [|a l IH]; intros v; cbn [fold_left].
  - repeat split.
  - destruct (IH (vs_mark1 v a)) as (A & B & C & D). destruct (mark1_ok v a) as (A' & B' & C' & D').
    repeat split; try congruence. intros o. rewrite D, D'.
    destruct (in_dec Z.eq_dec o l) as [I|I], (in_dec Z.eq_dec o (a :: l)) as [J|J];
      destruct (Z.eqb_spec o a) as [-> | N]; cbn in *; try reflexivity; try (destruct (vs_slot v a); reflexivity); try tauto.
    destruct J as [J|J]; [congruence|tauto].
Qed.
Lemma mark_ok v a b : v_base (vs_mark v a b) = v_base v /\ v_top (vs_mark v a b) = v_top v /\
  cap (vs_mark v a b) = cap v /\
  forall o, vs_slot (vs_mark v a b) o = if (a <=? o) && (o <? b) then mat (vs_slot v o) else vs_slot v o.
Proof.
  unfold vs_mark. destruct (mark_list (zrange a b) v) as (A & B & C & D). repeat split; auto.
  intros o. rewrite D. destruct (in_dec Z.eq_dec o (zrange a b)) as [I|I]; rewrite zrange_in in I;
    destruct (Z.leb_spec a o), (Z.ltb_spec o b); cbn; try reflexivity; lia.
Qed.

(** ** Spilling *)
Lemma store_all_other start l : forall m p, (forall o x, In (o, x) l -> start + o <> p) -> store_all start m l p = m p.
Proof.
  unfold store_all. induction l as [|[o x] l IH]; intros m p H; cbn [fold_left]; [reflexivity|].
  rewrite IH by (intros; eapply H; right; eauto). unfold mset.
  destruct (Z.eqb_spec p (start + o)) as [E|E]; [|reflexivity]. exfalso. eapply H; [now left|]. now symmetry.
Qed.
Lemma store_all_hit start l : forall m o x, NoDup (map fst l) -> In (o, x) l -> store_all start m l (start + o) = x.
Proof.
  unfold store_all. induction l as [|[a y] l IH]; intros m o x N I; [easy|]. cbn [fold_left].
  cbn in N. inversion N as [|? ? N1 N2]; subst. destruct I as [I|I].
  - injection I as -> ->. fold (store_all start (mset m (start + o) x) l).
    rewrite store_all_other; [unfold mset; now rewrite Z.eqb_refl|].
    intros o' x' I E. apply N1. replace o with o' by lia. apply in_map_iff. now exists (o', x').
  - apply IH; auto.
Qed.
Lemma pending_in v a b o x : In (o, x) (vs_pending v a b) <-> a <= o < b /\ vs_slot v o = Some (Virtual x).
Proof.
  unfold vs_pending. rewrite in_flat_map. split.
  - intros (k & K & I). apply zrange_in in K. destruct (vs_slot v k) as [[|y]|] eqn:E; cbn in I; try tauto.
    destruct I as [[= <- <-]|[]]. auto.
  - intros (R & E). exists o. rewrite zrange_in, E. split; [auto|]. now left.
Qed.
Lemma pending_nodup v a b : NoDup (map fst (vs_pending v a b)).
Proof.
  unfold vs_pending. generalize (zrange_nodup a b). induction (zrange a b) as [|k l IH]; intros N; [constructor|].
  inversion N as [|? ? N1 N2]; subst. cbn [flat_map]. rewrite map_app.
  destruct (vs_slot v k) as [[|y]|]; cbn [map app]; auto.
  cbn. constructor; auto. rewrite in_map_iff. intros ((o & x) & E & I). cbn in E. subst o.
  apply in_flat_map in I as (k' & K & I). destruct (vs_slot v k') as [[|z]|]; cbn in I; try tauto.
  destruct I as [[= -> ->]|[]]. auto.
Qed.

(** [materialize_range] leaves every slot's value alone, and puts exactly the virtual slots of the
    range into memory. *)
Lemma materialize_ok c a b :
  let c' := materialize_range c a b in
  v_base (c_vs c') = v_base (c_vs c) /\ v_top (c_vs c') = v_top (c_vs c) /\ cap (c_vs c') = cap (c_vs c) /\
  c_start c' = c_start c /\ c_slo c' = c_slo c /\ c_lo c' = c_lo c /\ c_len c' = c_len c /\ c_stored c' = c_stored c /\
  (forall o, vs_slot (c_vs c') o = if (a <=? o) && (o <? b) then mat (vs_slot (c_vs c) o) else vs_slot (c_vs c) o) /\
  (forall p, c_mem c' p = if (a <=? p - c_start c) && (p - c_start c <? b) then slot_value c p else c_mem c p) /\
  (forall p, slot_value c' p = slot_value c p).
Proof.
  intros c'. destruct (mark_ok (c_vs c) a b) as (A & B & C & D).
  assert (M : forall p, c_mem c' p = if (a <=? p - c_start c) && (p - c_start c <? b) then slot_value c p else c_mem c p).
  { intros p. unfold c', materialize_range, with_vs, with_mem. cbn [c_mem c_start c_vs].
    destruct (vs_slot (c_vs c) (p - c_start c)) as [[|x]|] eqn:E.
    - rewrite store_all_other; [|intros o x I F; apply pending_in in I as [_ I];
        replace (p - c_start c) with o in E by lia; congruence].
      unfold slot_value. rewrite E. now destruct (_ && _).
    - destruct ((a <=? p - c_start c) && (p - c_start c <? b)) eqn:R.
      + apply andb_true_iff in R as [R1 R2]. apply Z.leb_le in R1. apply Z.ltb_lt in R2.
        replace p with (c_start c + (p - c_start c)) at 1 by lia.
        rewrite (store_all_hit _ _ _ (p - c_start c) x); [unfold slot_value; now rewrite E|apply pending_nodup|].
        apply pending_in. auto.
      + rewrite store_all_other; [reflexivity|]. intros o y I F. apply pending_in in I as [R' I].
        apply andb_false_iff in R as [R|R]; [apply Z.leb_gt in R|apply Z.ltb_ge in R]; lia.
    - rewrite store_all_other; [|intros o x I F; apply pending_in in I as [_ I];
        replace (p - c_start c) with o in E by lia; congruence].
      unfold slot_value. rewrite E. now destruct (_ && _). }
  repeat split; auto.
  intros p. unfold slot_value at 1. rewrite (M p). unfold c' at 1, materialize_range, with_vs, with_mem.
  cbn [c_vs c_start]. change (c_start c') with (c_start c). rewrite D.
  destruct ((a <=? p - c_start c) && (p - c_start c <? b)) eqn:R.
  - unfold mat. destruct (vs_slot (c_vs c) (p - c_start c)); reflexivity.
  - reflexivity.
Qed.

(** ** Reading operands *)
Definition frame (c c' : cx) : Prop :=
  v_base (c_vs c') = v_base (c_vs c) /\ cap (c_vs c') = cap (c_vs c) /\
  c_start c' = c_start c /\ c_slo c' = c_slo c /\ c_len c' = c_len c /\ c_stored c' = c_stored c.
Definition keeps (c c' : cx) : Prop :=
  (forall o, vs_slot (c_vs c) o <> None -> vs_slot (c_vs c') o <> None) /\
  (forall p, slot_value c' p = slot_value c p).
Lemma frame_refl c : frame c c.
Proof. repeat split. Qed.
Lemma keeps_refl c : keeps c c.
Proof. split; auto. Qed.
Lemma frame_trans c c1 c2 : frame c c1 -> frame c1 c2 -> frame c c2.
Proof. unfold frame. intuition congruence. Qed.
Lemma keeps_trans c c1 c2 : keeps c c1 -> keeps c1 c2 -> keeps c c2.
Proof. intros [A B] [A' B']. split; auto. intros p. rewrite B'. apply B. Qed.
#[local] Hint Resolve frame_refl keeps_refl : core.

Lemma mem_slot_value c p : (forall x, vs_slot (c_vs c) (p - c_start c) <> Some (Virtual x)) -> slot_value c p = c_mem c p.
Proof. intros H. unfold slot_value. destruct (vs_slot _ _) as [[|x]|]; auto. now destruct (H x). Qed.

Definition operand (cin : nat -> option Z) (c : cx) (od ld : nat) : Z :=
  match cin od with Some k => k | None => slot_value c (c_start c + v_top (c_vs c) - 1 - Z.of_nat ld) end.

Lemma value_at_ok cin c od ld :
  vs_slot (c_vs c) (v_top (c_vs c) - 1 - Z.of_nat ld) <> None ->
  exists c', value_at cin c od ld = Some (operand cin c od ld, c') /\ frame c c' /\ keeps c c' /\
             v_top (c_vs c') = v_top (c_vs c) /\ c_lo c' = c_lo c /\ c_mem c' = c_mem c.
Proof.
  intros T. unfold value_at, operand. destruct (cin od) as [k|]; [eexists; eauto 7|].
  unfold vs_get, vs_offset_at_depth. set (o := v_top (c_vs c) - 1 - Z.of_nat ld) in *.
  replace (c_start c + v_top (c_vs c) - 1 - Z.of_nat ld) with (c_start c + o) by lia.
  destruct (vs_slot (c_vs c) o) as [[|x]|] eqn:E; [| |congruence].
  - assert (B := slot_some_inb _ _ _ E).
    unfold vs_set, vs_offset_at_depth. fold o.
    destruct (set_at (c_vs c) o (c_mem c (c_start c + o)) B) as (v' & -> & V1 & V2 & V3 & V4).
    assert (SV : slot_value c (c_start c + o) = c_mem c (c_start c + o)).
    { apply mem_slot_value. replace (c_start c + o - c_start c) with o by lia. congruence. }
    rewrite SV. eexists; split; [reflexivity|]. repeat split; cbn; auto.
    + intros o' H. rewrite V4. destruct (o' =? o); congruence.
    + intros p. unfold slot_value at 1. cbn. rewrite V4. destruct (Z.eqb_spec (p - c_start c) o) as [F|F].
      * rewrite <- SV. f_equal. lia.
      * reflexivity.
  - exists c. split; [|auto 7]. unfold slot_value. replace (c_start c + o - c_start c) with o by lia.
    now rewrite E.
Qed.

Lemma operand_keeps cin c c' od ld : frame c c' -> keeps c c' -> v_top (c_vs c') = v_top (c_vs c) ->
  operand cin c' od ld = operand cin c od ld.
Proof.
  intros F K T. unfold operand. destruct (cin od); [reflexivity|]. destruct K as [_ K]. rewrite K, T.
  destruct F as (_ & _ & -> & _). reflexivity.
Qed.

Lemma read_operands_ok cin base n : forall i c,
  (forall d, (d < i + n)%nat -> vs_slot (c_vs c) (v_top (c_vs c) - 1 - Z.of_nat d) <> None) ->
  exists c', read_operands cin base n i c = Some (map (fun d => operand cin c (base + d) d) (seq i n), c') /\
             frame c c' /\ keeps c c' /\ v_top (c_vs c') = v_top (c_vs c) /\ c_lo c' = c_lo c /\ c_mem c' = c_mem c.
Proof.
  induction n as [|n IH]; intros i c T; cbn [read_operands seq map]; [eexists; eauto 8|].
  destruct (value_at_ok cin c (base + i) i) as (c1 & -> & F & K & T1 & L1 & M1); [apply T; lia|].
  destruct (IH (S i) c1) as (c2 & -> & F2 & K2 & T2 & L2 & M2).
  { intros d D. rewrite T1. apply K. apply T. lia. }
  exists c2. split.
  - f_equal. f_equal. f_equal. apply map_ext. intros d. now apply operand_keeps.
  - split; [eapply frame_trans; eauto|]. split; [eapply keeps_trans; eauto|]. repeat split; congruence.
Qed.

Lemma pop_ignore_ok c n : v_base (c_vs c) <= v_top (c_vs c) - Z.of_nat n ->
  exists c', cx_pop_ignore c n = Some c' /\ frame c c' /\ v_top (c_vs c') = v_top (c_vs c) - Z.of_nat n /\
  c_lo c' = c_lo c - Z.of_nat n /\ c_mem c' = c_mem c /\ keeps c c'.
Proof.
  intros H. unfold cx_pop_ignore. rewrite drop_ok by auto. eexists; split; [reflexivity|]. repeat split; auto.
Qed.

Lemma popn_ok cin n c : v_base (c_vs c) <= v_top (c_vs c) - Z.of_nat n ->
  (forall d, (d < n)%nat -> vs_slot (c_vs c) (v_top (c_vs c) - 1 - Z.of_nat d) <> None) ->
  exists c', cx_popn cin n c = Some (map (fun d => operand cin c (Z.to_nat (- c_lo c) + d) d) (seq 0 n), c') /\
             frame c c' /\ keeps c c' /\ v_top (c_vs c') = v_top (c_vs c) - Z.of_nat n /\
             c_lo c' = c_lo c - Z.of_nat n /\ c_mem c' = c_mem c.
Proof.
  intros B T. unfold cx_popn.
  destruct (read_operands_ok cin (Z.to_nat (- c_lo c)) n 0 c) as (c1 & -> & F & K & T1 & L1 & M1); [auto|].
  assert (FF := F). destruct FF as (F1 & _).
  destruct (pop_ignore_ok c1 n) as (c2 & -> & F2 & T2 & L2 & M2 & K2); [lia|].
  exists c2. split; [reflexivity|]. split; [eapply frame_trans; eauto|]. split; [eapply keeps_trans; eauto|].
  repeat split; congruence.
Qed.

Lemma push_ok c x : inb (c_vs c) (v_top (c_vs c)) ->
  exists c', cx_push c x = Some c' /\ frame c c' /\ v_top (c_vs c') = v_top (c_vs c) + 1 /\ c_lo c' = c_lo c + 1 /\
  c_mem c' = c_mem c /\
  (forall o, vs_slot (c_vs c') o = if o =? v_top (c_vs c) then Some (Virtual x) else vs_slot (c_vs c) o) /\
  (forall p, slot_value c' p = if p =? c_start c + v_top (c_vs c) then x else slot_value c p).
Proof.
  intros B. unfold cx_push, vs_push.
  destruct (push_slot_ok (c_vs c) (Virtual x) B) as (v' & -> & V1 & V2 & V3 & V4).
  eexists; split; [reflexivity|]. repeat split; cbn; auto.
  intros p. unfold slot_value at 1. cbn. rewrite V4.
  destruct (Z.eqb_spec (p - c_start c) (v_top (c_vs c))), (Z.eqb_spec p (c_start c + v_top (c_vs c))); try lia; reflexivity.
Qed.

(** ** Builtin windows *)
Lemma write_const_one cin inputs c d : (d < inputs)%nat ->
  let off := c_slo c - 1 - Z.of_nat d in
  let c' := write_const_operand cin inputs c d in
  frame c c' /\ c_vs c' = c_vs c /\ c_lo c' = c_lo c /\
  forall p, c_mem c' p = if (p =? c_start c + off) then
      match vs_get_at_offset (c_vs c) off, cin d with Materialized, Some k => k | _, _ => c_mem c p end
    else c_mem c p.
Proof.
  intros D off c'. unfold c', write_const_operand.
  replace (c_slo c - Z.of_nat inputs + Z.of_nat (inputs - 1 - d)) with off by lia.
  destruct (vs_get_at_offset (c_vs c) off), (cin d); repeat split; auto; intros p; cbn; unfold mset;
    destruct (p =? c_start c + off); auto.
Qed.
Lemma write_const_list cin inputs ds : forall c, (forall d, In d ds -> (d < inputs)%nat) -> NoDup ds ->
  let c' := fold_left (write_const_operand cin inputs) ds c in
  frame c c' /\ c_vs c' = c_vs c /\ c_lo c' = c_lo c /\
  (forall p, (forall d, In d ds -> p <> c_start c + c_slo c - 1 - Z.of_nat d) -> c_mem c' p = c_mem c p) /\
  (forall d, In d ds -> let off := c_slo c - 1 - Z.of_nat d in
     c_mem c' (c_start c + off) =
       match vs_get_at_offset (c_vs c) off, cin d with Materialized, Some k => k | _, _ => c_mem c (c_start c + off) end).
Proof.
  induction ds as [|a ds IH]; intros c D N; cbn zeta; cbn [fold_left].
  - repeat split; auto. intros d [].
  - inversion N as [|? ? N1 N2]; subst.
    destruct (write_const_one cin inputs c a) as (F & V & L & M); [apply D; now left|].
    set (c1 := write_const_operand cin inputs c a) in *.
    destruct (IH c1) as (F' & V' & L' & M' & H'); [intros; apply D; now right|auto|].
    assert (S1 : c_start c1 = c_start c /\ c_slo c1 = c_slo c) by (unfold frame in F; tauto).
    destruct S1 as [S1 S2]. rewrite S1, S2 in *. split; [eapply frame_trans; eauto|].
    split; [congruence|]. split; [congruence|]. split.
    + intros p P. rewrite M'; [|intros; apply P; now right]. rewrite M.
      destruct (Z.eqb_spec p (c_start c + (c_slo c - 1 - Z.of_nat a))) as [E|E]; [|reflexivity].
      exfalso. apply (P a); [now left|lia].
    + intros d [-> |I]; cbn zeta.
      * rewrite M'; [|intros e E F1; apply N1; replace d with e by lia; auto]. rewrite M, Z.eqb_refl. reflexivity.
      * specialize (H' d I). cbn zeta in H'. rewrite H', V, M.
        destruct (Z.eqb_spec (c_start c + (c_slo c - 1 - Z.of_nat d)) (c_start c + (c_slo c - 1 - Z.of_nat a))) as [E|E];
          [|reflexivity]. exfalso. apply N1. replace a with d by lia. auto.
Qed.

Lemma mset_list l : forall m p q,
  fst (fold_left (fun '(m, p) x => (mset m p x, p + 1)) l (m, p)) q =
  if (p <=? q) && (q <? p + Z.of_nat (length l)) then nth (Z.to_nat (q - p)) l 0 else m q.
Proof.
  induction l as [|x l IH]; intros m p q; cbn [fold_left length].
  - cbn. destruct (Z.leb_spec p q), (Z.ltb_spec q (p + 0)); cbn; auto; lia.
  - rewrite IH. unfold mset.
    destruct (Z.leb_spec (p + 1) q), (Z.ltb_spec q (p + 1 + Z.of_nat (length l))), (Z.leb_spec p q),
      (Z.ltb_spec q (p + Z.of_nat (S (length l)))), (Z.eqb_spec q p); cbn [andb]; try lia; auto.
    + replace (Z.to_nat (q - p)) with (S (Z.to_nat (q - (p + 1)))) by lia. reflexivity.
    + subst. now rewrite Z.sub_diag.
Qed.

Lemma mem_results_ok c off outs :
  let c' := mem_results c off outs in
  frame c c' /\ c_vs c' = c_vs c /\ c_lo c' = c_lo c /\
  forall p, c_mem c' p = if (c_start c + off <=? p) && (p <? c_start c + off + Z.of_nat (length outs))
                         then nth (length outs - 1 - Z.to_nat (p - c_start c - off)) outs 0 else c_mem c p.
Proof.
  cbn zeta. repeat split. intros p. unfold mem_results. cbn [c_mem with_mem]. rewrite mset_list, rev_length.
  destruct (_ && _) eqn:E; [|reflexivity].
  apply andb_true_iff in E as [E1 E2]. apply Z.leb_le in E1. apply Z.ltb_lt in E2.
  rewrite rev_nth by lia. f_equal. lia.
Qed.

(** [sp_after_inputs]: the operands are in memory, constants included; everything below the window is
    untouched. *)
Lemma sp_after_inputs_ok cin ni no c : v_top (c_vs c) = c_slo c ->
  let c' := sp_after_inputs cin ni no c in
  frame c c' /\ c_lo c' = c_lo c /\ v_top (c_vs c') = c_slo c /\
  (forall o, vs_slot (c_vs c) o <> None -> vs_slot (c_vs c') o <> None) /\
  (forall o x, c_slo c - Z.of_nat ni <= o < c_slo c - Z.of_nat ni + Z.of_nat (Nat.max ni no) ->
               vs_slot (c_vs c') o <> Some (Virtual x)) /\
  (forall p, p < c_start c + c_slo c - Z.of_nat ni -> slot_value c' p = slot_value c p) /\
  mem_operands c' ni = map (fun d => operand cin c d d) (seq 0 ni).
Proof.
  intros T c'. unfold c', sp_after_inputs, write_const_operands.
  set (a := c_slo c - Z.of_nat ni). set (b := a + Z.of_nat (Nat.max ni no)).
  destruct (materialize_ok c a b) as (M1 & M2 & M3 & M4 & M5 & M6 & M7 & M8 & MS & MM & MV).
  set (c1 := materialize_range c a b) in *.
  destruct (write_const_list cin ni (seq 0 ni) c1) as (F & V & L & Mo & Mh);
    [intros d D; apply in_seq in D; lia|apply seq_NoDup|].
  set (c2 := fold_left (write_const_operand cin ni) (seq 0 ni) c1) in *.
  assert (F2 : frame c c2).
  { eapply frame_trans; [|exact F]. repeat split; auto. }
  assert (G : c_start c2 = c_start c /\ c_slo c2 = c_slo c) by (unfold frame in F2; tauto). destruct G as [G1 G2].
  rewrite M4, M5 in *.
  split; [exact F2|]. split; [congruence|]. split; [congruence|]. split; [|split; [|split]].
  - intros o H. rewrite V, MS. destruct (_ && _); auto. destruct (vs_slot (c_vs c) o); [discriminate|auto].
  - intros o x H. rewrite V, MS. destruct (Z.leb_spec a o), (Z.ltb_spec o b); try lia. cbn.
    destruct (vs_slot (c_vs c) o); discriminate.
  - intros p P. rewrite <- MV. unfold slot_value. rewrite V, G1, M4, Mo; [reflexivity|].
    intros d D. apply in_seq in D. lia.
  - unfold mem_operands. rewrite G1, G2. apply map_ext_in. intros d D.
    replace (c_start c + c_slo c - 1 - Z.of_nat d) with (c_start c + (c_slo c - 1 - Z.of_nat d)) by lia.
    rewrite (Mh d D). apply in_seq in D.
    assert (NM : vs_get_at_offset (c_vs c1) (c_slo c - 1 - Z.of_nat d) = Materialized).
    { unfold vs_get_at_offset. rewrite MS. destruct (Z.leb_spec a (c_slo c - 1 - Z.of_nat d)),
        (Z.ltb_spec (c_slo c - 1 - Z.of_nat d) b); try lia. cbn. now destruct (vs_slot _ _). }
    rewrite NM. unfold operand. destruct (cin d); [reflexivity|]. rewrite MM.
    replace (c_start c + v_top (c_vs c) - 1 - Z.of_nat d) with (c_start c + (c_slo c - 1 - Z.of_nat d)) by lia.
    destruct (Z.leb_spec a (c_start c + (c_slo c - 1 - Z.of_nat d) - c_start c)),
      (Z.ltb_spec (c_start c + (c_slo c - 1 - Z.of_nat d) - c_start c) b); try lia. reflexivity.
Qed.

Definition mat_one (inputs : nat) (c : cx) (depth : nat) : cx :=
  materialize_range c (c_slo c - Z.of_nat inputs + Z.of_nat (inputs - 1 - depth))
    (c_slo c - Z.of_nat inputs + Z.of_nat (inputs - 1 - depth) + 1).
Lemma mat_one_list (inputs : nat) ds : forall c, (forall d, In d ds -> (d < inputs)%nat) ->
  let c' := fold_left (mat_one inputs) ds c in
  frame c c' /\ c_lo c' = c_lo c /\ v_top (c_vs c') = v_top (c_vs c) /\ keeps c c' /\
  (forall o, vs_slot (c_vs c') o = vs_slot (c_vs c) o \/ vs_slot (c_vs c') o = mat (vs_slot (c_vs c) o)) /\
  (forall d x, In d ds -> vs_slot (c_vs c') (c_slo c - 1 - Z.of_nat d) <> Some (Virtual x)).
Proof.
  induction ds as [|a ds IH]; intros c D; cbn zeta; cbn [fold_left]; [auto 10|].
  assert (Em : mat_one inputs c a = materialize_range c (c_slo c - Z.of_nat inputs + Z.of_nat (inputs - 1 - a))
    (c_slo c - Z.of_nat inputs + Z.of_nat (inputs - 1 - a) + 1)) by reflexivity. rewrite Em. clear Em.
  set (off := c_slo c - Z.of_nat inputs + Z.of_nat (inputs - 1 - a)).
  assert (Eo : off = c_slo c - 1 - Z.of_nat a) by (specialize (D a (or_introl eq_refl)); lia).
  destruct (materialize_ok c off (off + 1)) as (M1 & M2 & M3 & M4 & M5 & M6 & M7 & M8 & MS & MM & MV).
  set (c1 := materialize_range c off (off + 1)) in *.
  destruct (IH c1) as (F & L & T & K & S & H); [intros; apply D; now right|].
  assert (F1 : frame c c1) by (repeat split; auto).
  assert (K1 : keeps c c1).
  { split; [|exact MV]. intros o N. rewrite MS. destruct (_ && _); auto. destruct (vs_slot (c_vs c) o); cbn; congruence. }
  split; [eapply frame_trans; eauto|]. split; [etransitivity; [exact L|exact M6]|]. split; [etransitivity; [exact T|exact M2]|].
  split; [eapply keeps_trans; eauto|]. rewrite M5 in H. split.
  - intros o. specialize (S o). rewrite MS in S. destruct (_ && _); destruct S as [-> | ->]; auto.
    right. destruct (vs_slot (c_vs c) o); reflexivity.
  - intros d x [-> |I]; [|now apply H].
    specialize (S (c_slo c - 1 - Z.of_nat d)). rewrite MS in S.
    destruct (Z.leb_spec off (c_slo c - 1 - Z.of_nat d)), (Z.ltb_spec (c_slo c - 1 - Z.of_nat d) (off + 1)); try lia.
    cbn in S. destruct S as [-> | ->]; destruct (vs_slot (c_vs c) _); cbn; congruence.
Qed.

Lemma sp_after_inputs_with_ok cin ni ds c : (forall d, In d ds -> (d < ni)%nat) ->
  let c' := sp_after_inputs_with cin ni ds c in
  frame c c' /\ c_lo c' = c_lo c /\ v_top (c_vs c') = v_top (c_vs c) /\
  (forall o, vs_slot (c_vs c) o <> None -> vs_slot (c_vs c') o <> None) /\
  (forall p, p < c_start c + c_slo c - Z.of_nat ni -> slot_value c' p = slot_value c p) /\
  (forall d, (d < ni)%nat -> cin d = None ->
     slot_value c' (c_start c + c_slo c - 1 - Z.of_nat d) = slot_value c (c_start c + c_slo c - 1 - Z.of_nat d)) /\
  (forall d, In d ds -> cin d = None ->
     c_mem c' (c_start c + c_slo c - 1 - Z.of_nat d) = slot_value c (c_start c + c_slo c - 1 - Z.of_nat d)).
Proof.
  intros D c'.
  assert (E : c' = fold_left (write_const_operand cin ni) (seq 0 ni) (fold_left (mat_one ni) ds c)) by reflexivity.
  clearbody c'. subst c'.
  destruct (mat_one_list ni ds c D) as (F1 & L1 & T1 & K1 & S1 & H1).
  set (c1 := fold_left (mat_one ni) ds c) in *.
  destruct (write_const_list cin ni (seq 0 ni) c1) as (F & V & L & Mo & Mh);
    [intros d I; apply in_seq in I; lia|apply seq_NoDup|].
  set (c2 := fold_left (write_const_operand cin ni) (seq 0 ni) c1) in *.
  assert (F2 : frame c c2) by (eapply frame_trans; eauto).
  assert (G : c_start c1 = c_start c /\ c_slo c1 = c_slo c) by (unfold frame in F1; tauto). destruct G as [G1 G2].
  assert (G3 : c_start c2 = c_start c) by (unfold frame in F2; tauto).
  rewrite G1, G2 in *.
  assert (N : forall d, (d < ni)%nat -> cin d = None ->
     c_mem c2 (c_start c + c_slo c - 1 - Z.of_nat d) = c_mem c1 (c_start c + c_slo c - 1 - Z.of_nat d)).
  { intros d I E. replace (c_start c + c_slo c - 1 - Z.of_nat d) with (c_start c + (c_slo c - 1 - Z.of_nat d)) by lia.
    rewrite Mh by (apply in_seq; lia). rewrite E. now destruct (vs_get_at_offset _ _). }
  split; [exact F2|]. split; [congruence|]. split; [congruence|]. split; [|split; [|split]].
  - intros o H. rewrite V. now apply K1.
  - intros p P. destruct K1 as [_ K1]. rewrite <- K1. unfold slot_value. rewrite V, G1, G3, Mo; [reflexivity|].
    intros d I. apply in_seq in I. lia.
  - intros d I E. destruct K1 as [_ K1]. rewrite <- K1. unfold slot_value. rewrite V, G1, G3, N; auto.
  - intros d I E. rewrite N by auto. destruct K1 as [_ K1]. rewrite <- K1. symmetry. apply mem_slot_value.
    intros x. rewrite G1. replace (c_start c + c_slo c - 1 - Z.of_nat d - c_start c) with (c_slo c - 1 - Z.of_nat d) by lia.
    auto.
Qed.

(** ** Ends of instructions *)
Definition tracked (c : cx) (t : Z) : Prop := forall o, v_base (c_vs c) <= o < t -> vs_slot (c_vs c) o <> None.

Lemma sync_ok no diff c :
  v_base (c_vs c) <= c_slo c + diff <= v_base (c_vs c) + cap (c_vs c) ->
  v_base (c_vs c) <= v_top (c_vs c) -> tracked c (v_top (c_vs c)) ->
  exists c', sync_virtual_stack_diff no diff c = Some c' /\ frame c c' /\ c_lo c' = c_lo c /\ c_mem c' = c_mem c /\
  v_top (c_vs c') = c_slo c + diff /\ tracked c' (c_slo c + diff) /\
  (forall o, o < v_top (c_vs c) -> o < c_slo c + diff - Z.of_nat no -> vs_slot (c_vs c') o = vs_slot (c_vs c) o) /\
  (forall o x, v_top (c_vs c) <> c_slo c + diff -> c_slo c + diff - Z.of_nat no <= o < c_slo c + diff ->
               vs_slot (c_vs c') o <> Some (Virtual x)) /\
  (v_top (c_vs c) = c_slo c + diff -> c' = c).
Proof.
  intros B B2 T. unfold sync_virtual_stack_diff.
  destruct (Z.eqb_spec (v_top (c_vs c)) (c_slo c + diff)) as [E|E].
  - exists c. repeat split; auto; try (rewrite <- E; assumption); intros; congruence.
  - destruct (Z.ltb_spec (c_slo c + diff) (v_base (c_vs c))); [lia|].
    assert (X : exists v, (if c_slo c + diff - v_top (c_vs c) <? 0
        then vs_drop_top (c_vs c) (Z.to_nat (- (c_slo c + diff - v_top (c_vs c))))
        else vs_push_mems (c_vs c) (Z.to_nat (c_slo c + diff - v_top (c_vs c)))) = Some v /\
        v_base v = v_base (c_vs c) /\ v_top v = c_slo c + diff /\ cap v = cap (c_vs c) /\
        (forall o, v_base (c_vs c) <= o < c_slo c + diff -> vs_slot v o <> None) /\
        (forall o, o < v_top (c_vs c) -> vs_slot v o = vs_slot (c_vs c) o)).
    { destruct (Z.ltb_spec (c_slo c + diff - v_top (c_vs c)) 0).
      - rewrite drop_ok by lia. eexists; split; [reflexivity|]. cbn. repeat split; try lia.
        intros o O. apply T. lia.
      - destruct (push_mems_ok (Z.to_nat (c_slo c + diff - v_top (c_vs c))) (c_vs c)) as (v & -> & V1 & V2 & V3 & V4);
          [lia|lia|]. exists v. repeat split; auto; try lia.
        + intros o O. rewrite V4. destruct (_ && _) eqn:Q; [discriminate|]. apply T.
          apply andb_false_iff in Q as [Q|Q]; [apply Z.leb_gt in Q|apply Z.ltb_ge in Q]; lia.
        + intros o O. rewrite V4. destruct (Z.leb_spec (v_top (c_vs c)) o); [lia|reflexivity]. }
    destruct X as (v & -> & V1 & V2 & V3 & V4 & V5). set (exp := c_slo c + diff) in *.
    assert (Y : exists v', (if (0 <? no)%nat then vs_mark v (exp - Z.of_nat no) exp else v) = v' /\
       v_base v' = v_base v /\ v_top v' = v_top v /\ cap v' = cap v /\
       forall o, vs_slot v' o = if (exp - Z.of_nat no <=? o) && (o <? exp) then mat (vs_slot v o) else vs_slot v o).
    { destruct (Nat.ltb_spec 0 no); eexists; (split; [reflexivity|]).
      - apply mark_ok.
      - repeat split. intros o. destruct (_ && _) eqn:Q; [|reflexivity].
        apply andb_true_iff in Q as [Q1 Q2]. apply Z.leb_le in Q1. apply Z.ltb_lt in Q2. lia. }
    destruct Y as (v' & -> & Y1 & Y2 & Y3 & Y4).
    destruct (Z.eqb_spec (v_top v') exp); [|lia]. eexists; split; [reflexivity|].
    repeat split; cbn; auto; try congruence; try lia.
    + intros o O. cbn in *. rewrite Y4. destruct (_ && _); [|apply V4; lia].
      specialize (V4 o ltac:(lia)). now destruct (vs_slot v o).
    + intros o O1 O2. rewrite Y4. destruct (Z.leb_spec (exp - Z.of_nat no) o); [lia|]. cbn. now apply V5.
    + intros o x _ O. rewrite Y4. destruct (Z.leb_spec (exp - Z.of_nat no) o), (Z.ltb_spec o exp); try lia. cbn.
      destruct (vs_slot v o); discriminate.
Qed.

Lemma leave_ok nh c :
  let c' := leave nh c in
  frame c c' /\ c_lo c' = c_lo c /\ v_top (c_vs c') = v_top (c_vs c) /\ keeps c c' /\
  (nh = true -> forall p, p < c_start c + v_top (c_vs c) -> c_mem c' p = slot_value c p).
Proof.
  assert (M : forall a b, let c' := materialize_range c a b in
     frame c c' /\ c_lo c' = c_lo c /\ v_top (c_vs c') = v_top (c_vs c) /\ keeps c c').
  { intros a b. destruct (materialize_ok c a b) as (M1 & M2 & M3 & M4 & M5 & M6 & M7 & M8 & MS & MM & MV).
    cbn zeta. repeat split; auto. intros o N. rewrite MS. destruct (_ && _); auto.
    destruct (vs_slot (c_vs c) o); cbn; congruence. }
  cbn zeta. destruct nh; cbn [leave].
  - destruct (M (v_base (c_vs c)) (v_top (c_vs c))) as (A & B & C & D). unfold materialize_live.
    repeat split; auto; try apply A; try apply D.
    intros _ p P. destruct (materialize_ok c (v_base (c_vs c)) (v_top (c_vs c))) as (_ & _ & _ & _ & _ & _ & _ & _ & _ & MM & _).
    rewrite MM. destruct (_ && _) eqn:Q; [reflexivity|].
    symmetry. apply mem_slot_value. intros x E. apply slot_some_inb in E. unfold inb in E.
    apply andb_false_iff in Q as [Q|Q]; [apply Z.leb_gt in Q|apply Z.ltb_ge in Q]; lia.
  - assert (R : frame c (relieve c) /\ c_lo (relieve c) = c_lo c /\ v_top (c_vs (relieve c)) = v_top (c_vs c) /\ keeps c (relieve c)).
    { unfold relieve. destruct (_ <=? _); auto. destruct (_ <=? _)%nat; auto. destruct (_ <? _); auto. }
    destruct R as (A & B & C & D). repeat split; auto; try apply A; try apply D. discriminate.
Qed.

(** ** One instruction *)
Definition vals (live : Z -> Prop) (c : cx) (st : list Z) : Prop :=
  forall p, 0 <= p < Z.of_nat (length st) -> live p -> slot_value c p = nth (length st - 1 - Z.to_nat p) st 0.
(** Inside a section. *)
Definition section_state (live : Z -> Prop) (c : cx) (st : list Z) : Prop :=
  represents_on live c st /\ v_base (c_vs c) <= c_slo c <= v_base (c_vs c) + cap (c_vs c) /\
  tracked c (c_slo c) /\ c_len c = c_start c + c_stored c.
(** An instruction's work is done, [section_len_offset] not yet advanced. *)
Definition done (c c2 : cx) (diff : Z) (live : Z -> Prop) (st : list Z) : Prop :=
  frame c c2 /\ v_top (c_vs c2) = c_slo c + diff /\ tracked c2 (c_slo c + diff) /\ vals live c2 st /\
  c_start c + c_slo c + diff = Z.of_nat (length st).

Lemma vals_app (live live' : Z -> Prop) c c2 st outs n : vals live c st -> (n <= length st)%nat ->
  (forall p, 0 <= p < Z.of_nat (length st) - Z.of_nat n -> live' p -> live p) ->
  (forall p, p < Z.of_nat (length st) - Z.of_nat n -> slot_value c2 p = slot_value c p) ->
  (forall p, Z.of_nat (length st) - Z.of_nat n <= p < Z.of_nat (length st) - Z.of_nat n + Z.of_nat (length outs) ->
     live' p -> slot_value c2 p = nth (length outs - 1 - Z.to_nat (p - (Z.of_nat (length st) - Z.of_nat n))) outs 0) ->
  vals live' c2 (outs ++ skipn n st).
Proof.
  intros V N P B O p Hp Lp. rewrite app_length, skipn_length in Hp |- *.
  destruct (Z.ltb_spec p (Z.of_nat (length st) - Z.of_nat n)) as [H|H].
  - rewrite B by lia. rewrite V; [|lia|apply P; [lia|auto]]. rewrite app_nth2 by lia.
    assert (K : forall k (l : list Z) d, nth k (skipn n l) d = nth (n + k) l d).
    { clear. induction n; intros; cbn; auto. destruct l; cbn; [now destruct k|auto]. }
    rewrite K. f_equal. lia.
  - rewrite O by (auto; lia). rewrite app_nth1 by lia. f_equal. lia.
Qed.

Lemma done_push (live live' : Z -> Prop) c c1 st n x : section_state live c st -> (n <= length st)%nat ->
  frame c c1 -> keeps c c1 -> v_top (c_vs c1) = c_slo c - Z.of_nat n ->
  v_base (c_vs c) <= c_slo c - Z.of_nat n < v_base (c_vs c) + cap (c_vs c) ->
  (forall p, 0 <= p < Z.of_nat (length st) - Z.of_nat n -> live' p -> live p) ->
  forall y, (live' (Z.of_nat (length st) - Z.of_nat n) -> x = y) ->
  exists c2, cx_push c1 x = Some c2 /\ done c c2 (1 - Z.of_nat n) live' (y :: skipn n st).
Proof.
  intros ((R1 & R2 & R3) & B & T & _) N F K T1 B1 P y E.
  assert (F' := F). destruct F' as (G1 & G2 & G3 & G4 & _).
  destruct (push_ok c1 x) as (c2 & -> & F2 & T2 & _ & _ & S2 & V2).
  { unfold inb. rewrite G1, G2, T1. auto. }
  exists c2. split; [reflexivity|]. split; [eapply frame_trans; eauto|]. split; [lia|]. split; [|split].
  - intros o O. destruct F2 as (F2 & _). rewrite S2. destruct (Z.eqb_spec o (v_top (c_vs c1))); [discriminate|].
    apply K. apply T. lia.
  - apply (vals_app live live' c c2 st [y] n); auto.
    + intros p Hp. rewrite V2. destruct (Z.eqb_spec p (c_start c1 + v_top (c_vs c1))); [lia|]. apply K.
    + cbn [length]. intros p Hp Lp. rewrite V2.
      assert (Ep : p = Z.of_nat (length st) - Z.of_nat n) by lia.
      destruct (Z.eqb_spec p (c_start c1 + v_top (c_vs c1))); [|lia].
      replace (1 - 1 - _)%nat with 0%nat by lia. cbn. apply E. congruence.
  - cbn [length]. rewrite skipn_length. lia.
Qed.

Lemma done_drop (live live' : Z -> Prop) c c1 st n : section_state live c st -> (n <= length st)%nat ->
  frame c c1 -> keeps c c1 -> v_top (c_vs c1) = c_slo c - Z.of_nat n ->
  v_base (c_vs c) <= c_slo c - Z.of_nat n ->
  (forall p, 0 <= p < Z.of_nat (length st) - Z.of_nat n -> live' p -> live p) ->
  done c c1 (- Z.of_nat n) live' (skipn n st).
Proof.
  intros ((R1 & R2 & R3) & B & T & _) N F K T1 B1 P.
  assert (F' := F). destruct F' as (G1 & G2 & G3 & G4 & _).
  split; [auto|]. split; [lia|]. split; [|split].
  - intros o O. apply K, T. lia.
  - apply (vals_app live live' c c1 st [] n); auto.
    + intros p _. apply K.
    + cbn. intros; lia.
  - rewrite skipn_length. lia.
Qed.

Lemma done_sync (live : Z -> Prop) c c1 no diff st : done c c1 diff live st ->
  v_base (c_vs c) <= c_slo c + diff <= v_base (c_vs c) + cap (c_vs c) ->
  sync_virtual_stack_diff no diff c1 = Some c1.
Proof.
  intros (F & T & _). destruct F as (_ & _ & _ & F & _). intros _.
  unfold sync_virtual_stack_diff. rewrite F, T, Z.eqb_refl. reflexivity.
Qed.

Lemma builtin_done (live live' : Z -> Prop) c c1 st ni outs : section_state live c st -> (ni <= length st)%nat ->
  frame c c1 -> v_top (c_vs c1) = c_slo c -> tracked c1 (c_slo c) ->
  v_base (c_vs c) <= c_slo c - Z.of_nat ni ->
  c_slo c - Z.of_nat ni + Z.of_nat (length outs) <= v_base (c_vs c) + cap (c_vs c) ->
  (ni = length outs -> forall o x, c_slo c - Z.of_nat ni <= o < c_slo c -> vs_slot (c_vs c1) o <> Some (Virtual x)) ->
  (forall p, p < Z.of_nat (length st) - Z.of_nat ni -> slot_value c1 p = slot_value c p) ->
  (forall p, 0 <= p < Z.of_nat (length st) - Z.of_nat ni -> live' p -> live p) ->
  exists c3, sync_virtual_stack_diff (length outs) (Z.of_nat (length outs) - Z.of_nat ni)
               (mem_results c1 (c_slo c - Z.of_nat ni) outs) = Some c3 /\
             done c c3 (Z.of_nat (length outs) - Z.of_nat ni) live' (outs ++ skipn ni st).
Proof.
  intros ((R1 & R2 & R3) & B & T & _) N F T1 TR B1 B2 Q V P.
  assert (F' := F). destruct F' as (G1 & G2 & G3 & G4 & _).
  destruct (mem_results_ok c1 (c_slo c - Z.of_nat ni) outs) as (F2 & V2 & L2 & M2).
  set (c2 := mem_results c1 (c_slo c - Z.of_nat ni) outs) in *.
  assert (F2' := F2). destruct F2' as (H1 & H2 & H3 & H4 & _).
  set (no := length outs) in *. set (diff := Z.of_nat no - Z.of_nat ni).
  assert (E : c_slo c2 + diff = c_slo c - Z.of_nat ni + Z.of_nat no) by lia.
  destruct (sync_ok no diff c2) as (c3 & -> & F3 & L3 & M3 & T3 & TR3 & S3 & W3 & I3).
  { unfold cap in *. rewrite V2 in *. lia. }
  { rewrite V2. lia. }
  { intros o O. rewrite V2 in *. apply TR. lia. }
  assert (F3' := F3). destruct F3' as (K1 & K2 & K3 & K4 & _).
  assert (NV : forall o x, c_slo c - Z.of_nat ni <= o < c_slo c - Z.of_nat ni + Z.of_nat no ->
               vs_slot (c_vs c3) o <> Some (Virtual x)).
  { intros o x O. destruct (Z.eq_dec (v_top (c_vs c2)) (c_slo c2 + diff)) as [D|D].
    - rewrite (I3 D), V2. apply Q; rewrite V2 in D; lia.
    - apply W3; [auto|lia]. }
  exists c3. split; [reflexivity|]. split; [eapply frame_trans; [|eauto]; eapply frame_trans; eauto|].
  split; [lia|]. split; [|split].
  - intros o O. apply TR3. lia.
  - apply (vals_app live live' c c3 st outs ni); auto.
    + intros p Hp. rewrite <- V by auto. unfold slot_value. rewrite M3, M2, K3, H3.
      destruct (Z.leb_spec (c_start c1 + (c_slo c - Z.of_nat ni)) p); [lia|]. cbn [andb].
      rewrite S3; rewrite ?V2; auto; lia.
    + intros p Hp Lp. rewrite mem_slot_value; [|intros x; apply NV; lia]. rewrite M3, M2.
      destruct (Z.leb_spec (c_start c1 + (c_slo c - Z.of_nat ni)) p),
        (Z.ltb_spec p (c_start c1 + (c_slo c - Z.of_nat ni) + Z.of_nat no)); try lia. cbn [andb].
      f_equal. fold no. lia.
  - rewrite app_length, skipn_length. fold no. lia.
Qed.

Lemma operands_ok (live : Z -> Prop) c st cin n : section_state live c st -> (n <= length st)%nat ->
  (forall d k, cin d = Some k -> (d < n)%nat -> nth d st 0 = k) ->
  (forall d, (d < n)%nat -> cin d = None -> live (Z.of_nat (length st) - 1 - Z.of_nat d)) ->
  forall d, (d < n)%nat -> operand cin c d d = nth d st 0.
Proof.
  intros ((R1 & R2 & R3) & _) N C L d D. unfold operand. destruct (cin d) eqn:E.
  - symmetry. now apply C.
  - rewrite R3; [f_equal; lia|lia|]. replace (c_start c + v_top (c_vs c) - 1 - Z.of_nat d) with
      (Z.of_nat (length st) - 1 - Z.of_nat d) by lia. auto.
Qed.

Lemma firstn_map_nth (st : list Z) n (f : nat -> Z) : (n <= length st)%nat -> (forall d, (d < n)%nat -> f d = nth d st 0) ->
  map f (seq 0 n) = firstn n st.
Proof.
  intros N H. apply (nth_ext _ _ 0 0).
  - rewrite map_length, seq_length, firstn_length. lia.
  - intros k K. rewrite map_length, seq_length in K.
    rewrite (nth_indep _ 0 (f 0%nat)) by (now rewrite map_length, seq_length).
    rewrite map_nth, seq_nth by auto. cbn. rewrite H by auto.
    clear -K. revert n st K. induction k; intros n st K; destruct n, st; cbn; auto; try lia.
    apply IHk. lia.
Qed.

Section Step.
Context {W : Type}.
Implicit Types (i : vinst W) (w : W).

(** What must be live before an instruction for [live'] to hold after it; [h] is the height before. *)
Definition live_step i (h : Z) (live live' : Z -> Prop) : Prop :=
  match vi_evm i with
  | EOp _ =>
    (vi_noop i = false -> vi_cout i = None -> vi_body i <> BPop ->
       forall d, (d < vi_in i)%nat -> vi_cin i d = None -> live (h - 1 - Z.of_nat d)) /\
    (forall p, 0 <= p < h - Z.of_nat (vi_in i) -> live' p -> live p) /\
    (vi_noop i = true -> forall p, h - Z.of_nat (vi_in i) <= p < h - Z.of_nat (vi_in i) + Z.of_nat (vi_out i) -> ~ live' p)
  | EDup n =>
    (forall p, 0 <= p < h -> live' p -> live p) /\
    (if vi_noop i then ~ live' h
     else live' h -> vi_cout i = None -> vi_cin i (n - 1)%nat = None -> live (h - Z.of_nat n))
  | ESwap a b =>
    (forall p, 0 <= p < h -> p <> h - 1 - Z.of_nat a -> p <> h - 1 - Z.of_nat b -> live' p -> live p) /\
    (if vi_noop i then ~ live' (h - 1 - Z.of_nat a) /\ ~ live' (h - 1 - Z.of_nat b)
     else (live' (h - 1 - Z.of_nat b) -> vi_cin i a = None -> live (h - 1 - Z.of_nat a)) /\
          (live' (h - 1 - Z.of_nat a) -> vi_cin i b = None -> live (h - 1 - Z.of_nat b)))
  | ECall _ =>
    (forall d, (d < vi_in i)%nat -> vi_cin i d = None -> live (h - 1 - Z.of_nat d)) /\
    (forall p, 0 <= p < h - Z.of_nat (vi_in i) -> live p)
  end.

Lemma nth_firstn_lt (st : list Z) n d : (d < n)%nat -> nth d (firstn n st) 0 = nth d st 0.
Proof. revert n st. induction d; intros [|n] [|x st] H; cbn; auto; try lia. apply IHd. lia. Qed.

Lemma cin_nth i st d k : const_inputs_ok i -> (vi_in i <= length st)%nat -> vi_fact i (firstn (vi_in i) st) ->
  vi_cin i d = Some k -> (d < vi_in i)%nat -> nth d st 0 = k.
Proof.
  intros C N F E D. destruct (C d k E) as [_ H]. rewrite <- (H (firstn (vi_in i) st)); auto.
  - now rewrite nth_firstn_lt.
  - rewrite firstn_length. lia.
Qed.

Lemma popn_args (live : Z -> Prop) i c st : section_state live c st -> c_lo c = 0 -> (vi_in i <= length st)%nat ->
  v_base (c_vs c) <= c_slo c - Z.of_nat (vi_in i) ->
  const_inputs_ok i -> vi_fact i (firstn (vi_in i) st) ->
  (forall d, (d < vi_in i)%nat -> vi_cin i d = None -> live (Z.of_nat (length st) - 1 - Z.of_nat d)) ->
  exists c', cx_popn (vi_cin i) (vi_in i) c = Some (firstn (vi_in i) st, c') /\
             frame c c' /\ keeps c c' /\ v_top (c_vs c') = c_slo c - Z.of_nat (vi_in i) /\ c_mem c' = c_mem c.
Proof.
  intros S L0 N B C F Lv. assert (S' := S). destruct S' as ((R1 & R2 & R3) & B' & T & _).
  destruct (popn_ok (vi_cin i) (vi_in i) c) as (c' & E & F' & K & T' & _ & M); [lia| |].
  { intros d D. apply T. lia. }
  exists c'. rewrite E, L0. cbn [Z.opp Z.to_nat]. split; [|repeat split; auto; try apply F'; try apply K; try congruence].
  f_equal. f_equal. apply firstn_map_nth; auto. intros d D. cbn [Nat.add].
  eapply operands_ok; eauto. intros. eapply cin_nth; eauto.
Qed.

Lemma firstn1 (st : list Z) : (1 <= length st)%nat -> firstn 1 st = [nth 0 st 0].
Proof. destruct st; cbn; [lia|reflexivity]. Qed.
Lemma firstn2 (st : list Z) : (2 <= length st)%nat -> firstn 2 st = [nth 0 st 0; nth 1 st 0].
Proof. destruct st as [|a [|b st]]; cbn; try lia. reflexivity. Qed.

Lemma arm_ok (live live' : Z -> Prop) i w c st r :
  section_state live c st -> c_lo c = 0 ->
  v_base (c_vs c) <= c_slo c - Z.of_nat (vi_in i) ->
  c_slo c - Z.of_nat (vi_in i) + Z.of_nat (vi_out i) <= v_base (c_vs c) + cap (c_vs c) ->
  inst_ok i -> is_exit (vi_body i) = false -> vi_noop i = false -> (if (1 <=? vi_out i)%nat then vi_cout i else None) = None ->
  vi_fact i (firstn (vi_in i) st) ->
  live_step i (Z.of_nat (length st)) live live' ->
  estep i w st = Some r ->
  match r with
  | EHalt w' => run_arm i w c = Some (RHalt w')
  | ENext w' st' => exists c1 c2, run_arm i w c = Some (RNext w' c1) /\
      sync_virtual_stack_diff (vi_out i) (Z.of_nat (vi_out i) - Z.of_nat (vi_in i)) c1 = Some c2 /\
      done c c2 (Z.of_nat (vi_out i) - Z.of_nat (vi_in i)) live' st'
  end.
Proof.
  intros SS L0 B1 B2 (CI & CO & BO & _) NE NN NC FA LS E.
  assert (S' := SS). destruct S' as ((R1 & R2 & R3) & B' & T & LEN).
  unfold estep in E. destruct (Nat.ltb_spec (length st) (vi_in i)) as [|N]; [discriminate|].
  assert (CO0 : vi_cout i = None).
  { destruct (vi_cout i) as [k|] eqn:Ck; [|reflexivity]. destruct (Nat.leb_spec 1 (vi_out i)) as [?|Z0]; [discriminate|].
    specialize (CO k Ck). unfold body_ok in BO.
    destruct (vi_evm i); try contradiction; [lia|]. destruct (vi_body i); try contradiction. lia. }
  unfold body_ok in BO. unfold live_step in LS. unfold run_arm, sem_of.
  destruct (vi_evm i) as [f|n|a b|f] eqn:Ev.
  2:{ (* DUP *)
    destruct (vi_body i) eqn:Eb; try contradiction. destruct BO as (<- & N1 & I1 & O1).
    injection E as <-. rewrite NN in LS. destruct LS as (LS1 & LS2).
    destruct n as [|n]; [lia|]. cbn [cx_dup].
    destruct (value_at_ok (vi_cin i) c n n) as (c1 & -> & F & K & T1 & _ & _).
    { apply T. lia. }
    destruct (done_push live live' c c1 st 0 (operand (vi_cin i) c n n) SS) with (y := nth (S n - 1) st 0)
      as (c2 & -> & D); auto; try lia.
    { intros p Hp. apply LS1. lia. }
    { intros Lv. cbn [Z.of_nat] in Lv. rewrite Z.sub_0_r in Lv. replace (S n - 1)%nat with n by lia.
      unfold operand. destruct (vi_cin i n) eqn:Ec.
      - symmetry. eapply cin_nth; eauto. lia.
      - replace (S n - 1)%nat with n in LS2 by lia. specialize (LS2 Lv CO0 Ec).
        rewrite R3; [f_equal; lia|lia|].
        replace (c_start c + v_top (c_vs c) - 1 - Z.of_nat n) with (Z.of_nat (length st) - Z.of_nat (S n)) by lia. auto. }
    cbn [Z.of_nat skipn] in D. exists c2, c2. split; [reflexivity|].
    replace (Z.of_nat (vi_out i) - Z.of_nat (vi_in i)) with (1 - 0) by lia. split; [|exact D].
    eapply done_sync; eauto. lia. }
  2:{ (* SWAP *)
    destruct (vi_body i) eqn:Eb; try contradiction. destruct BO as (-> & -> & N1 & I1 & O1).
    injection E as <-. rewrite NN in LS. destruct LS as (LS1 & LS2 & LS3).
    destruct m as [|m]; [lia|]. cbn [cx_exchange]. remember (S m) as mm.
    destruct (value_at_ok (vi_cin i) c n n) as (c1 & -> & F & K & T1 & L1 & _).
    { apply T. lia. }
    destruct (value_at_ok (vi_cin i) c1 (n + mm) (n + mm)) as (c2 & -> & F2 & K2 & T2 & L2 & _).
    { rewrite T1. apply K, T. lia. }
    rewrite (operand_keeps (vi_cin i) c c1) by auto.
    assert (F12 := frame_trans _ _ _ F F2). assert (K12 := keeps_trans _ _ _ K K2).
    assert (G := F12). destruct G as (G1 & G2 & G3 & G4 & _).
    set (x := operand (vi_cin i) c n n). set (y := operand (vi_cin i) c (n + mm) (n + mm)).
    unfold vs_set, vs_offset_at_depth.
    destruct (set_at (c_vs c2) (v_top (c_vs c2) - 1 - Z.of_nat n) y) as (v1 & -> & V1 & V2 & V3 & V4).
    { unfold inb. rewrite G1, G2. lia. }
    rewrite V2.
    destruct (set_at v1 (v_top (c_vs c2) - 1 - Z.of_nat (n + mm)) x) as (v2 & -> & U1 & U2 & U3 & U4).
    { unfold inb. rewrite V1, V3, G1, G2. lia. }
    assert (Hx : live' (Z.of_nat (length st) - 1 - Z.of_nat (n + mm)) -> x = nth n st 0).
    { intros Lv. unfold x, operand. destruct (vi_cin i n) eqn:Ec.
      - symmetry. eapply cin_nth; eauto. lia.
      - rewrite R3; [f_equal; lia|lia|].
        replace (c_start c + v_top (c_vs c) - 1 - Z.of_nat n) with (Z.of_nat (length st) - 1 - Z.of_nat n) by lia. auto. }
    assert (Hy : live' (Z.of_nat (length st) - 1 - Z.of_nat n) -> y = nth (n + mm) st 0).
    { intros Lv. unfold y, operand. destruct (vi_cin i (n + mm)) eqn:Ec.
      - symmetry. eapply cin_nth; eauto. lia.
      - rewrite R3; [f_equal; lia|lia|].
        replace (c_start c + v_top (c_vs c) - 1 - Z.of_nat (n + mm)) with (Z.of_nat (length st) - 1 - Z.of_nat (n + mm)) by lia. auto. }
    assert (D : done c (with_vs c2 v2) 0 live' (swap_nth st n (n + mm))).
    { split; [repeat split; cbn; try congruence; try apply F12|]. split; [cbn; lia|]. split; [|split].
      - intros o O. cbn in *. rewrite U4. destruct (_ =? _); [discriminate|]. rewrite V4. destruct (_ =? _); [discriminate|].
        apply K12, T. lia.
      - intros p Hp Lp. unfold swap_nth in *. rewrite !length_upd in *.
        unfold slot_value. cbn. rewrite U4, V4, G3.
        rewrite !nth_upd by (rewrite ?length_upd; lia).
        destruct (Z.eqb_spec (p - c_start c) (v_top (c_vs c2) - 1 - Z.of_nat (n + mm))) as [E1|E1].
        + destruct (Nat.eqb_spec (length st - 1 - Z.to_nat p) (n + mm)); [|lia]. apply Hx.
          replace (Z.of_nat (length st) - 1 - Z.of_nat (n + mm)) with p by lia. auto.
        + destruct (Nat.eqb_spec (length st - 1 - Z.to_nat p) (n + mm)); [lia|].
          destruct (Z.eqb_spec (p - c_start c) (v_top (c_vs c2) - 1 - Z.of_nat n)) as [E2|E2].
          * destruct (Nat.eqb_spec (length st - 1 - Z.to_nat p) n); [|lia]. apply Hy.
            replace (Z.of_nat (length st) - 1 - Z.of_nat n) with p by lia. auto.
          * destruct (Nat.eqb_spec (length st - 1 - Z.to_nat p) n); [lia|].
            rewrite <- R3; [|lia|apply LS1; auto; lia]. destruct K12 as [_ K12]. rewrite <- K12.
            unfold slot_value. now rewrite G3.
      - unfold swap_nth. rewrite !length_upd. lia. }
    exists (with_vs c2 v2), (with_vs c2 v2). split; [reflexivity|].
    replace (Z.of_nat (vi_out i) - Z.of_nat (vi_in i)) with 0 by lia. split; [|exact D].
    eapply done_sync; eauto. lia. }
  2:{ destruct (vi_body i) eqn:Eb; try contradiction. discriminate. }
  (* computations *)
  destruct BO as (LO & BO). destruct LS as (LS1 & LS2 & _).
  assert (FN : length (firstn (vi_in i) st) = vi_in i) by (rewrite firstn_length; lia).
  assert (LO' : forall w' outs, f w (firstn (vi_in i) st) = (w', Some outs) -> length outs = vi_out i).
  { intros w' outs H. apply (LO w (firstn (vi_in i) st)); [auto|now rewrite H]. }
  destruct (vi_body i) eqn:Eb; try contradiction; try discriminate.
  - (* JUMPDEST *)
    destruct BO as (I1 & O1). rewrite I1 in E, LO'. cbn [firstn skipn] in E, LO'.
    destruct (f w []) as [w' [outs|]] eqn:Ef; injection E as <-; [|reflexivity].
    exists c, c. assert (outs = []) by (apply length_zero_iff_nil; rewrite (LO' _ _ eq_refl); auto). subst outs.
    split; [reflexivity|]. replace (Z.of_nat (vi_out i) - Z.of_nat (vi_in i)) with (- Z.of_nat 0) by lia.
    assert (D : done c c (- Z.of_nat 0) live' ([] ++ st)).
    { eapply (done_drop live live' c c st 0 SS); auto; try lia. intros p Hp. apply LS2. lia. }
    split; [|exact D]. eapply done_sync; eauto. lia.
  - (* inline *)
    destruct BO as (I1 & O1).
    assert (P : exists c1, match n with O => Some ([], c) | _ => cx_popn (vi_cin i) n c end = Some (firstn (vi_in i) st, c1) /\
       frame c c1 /\ keeps c c1 /\ v_top (c_vs c1) = c_slo c - Z.of_nat (vi_in i)).
    { destruct (popn_args live i c st) as (c1 & Q & F & K & T1 & _); auto.
      { apply LS1; auto. discriminate. }
      rewrite I1 in Q, T1 |- *. destruct n; [|exists c1; auto]. exists c. repeat split; auto. lia. }
    destruct P as (c1 & -> & F & K & T1).
    destruct (f w (firstn (vi_in i) st)) as [w' [outs|]] eqn:Ef; injection E as <-; [|reflexivity].
    specialize (LO' _ _ eq_refl). destruct o.
    + destruct outs as [|x [|? ?]]; cbn in LO'; try lia. unfold push_all. cbn [rev app fold_left].
      destruct (done_push live live' c c1 st (vi_in i) x SS) with (y := x) as (c2 & -> & D); auto; try lia.
      exists c2, c2. split; [reflexivity|]. replace (Z.of_nat (vi_out i) - Z.of_nat (vi_in i)) with (1 - Z.of_nat (vi_in i)) by lia.
      split; [|exact D]. eapply done_sync; eauto. lia.
    + assert (outs = []) by (apply length_zero_iff_nil; lia). subst outs. unfold push_all. cbn [rev app fold_left].
      assert (D := done_drop live live' c c1 st (vi_in i) SS N F K T1 B1 LS2).
      exists c1, c1. split; [reflexivity|]. replace (Z.of_nat (vi_out i) - Z.of_nat (vi_in i)) with (- Z.of_nat (vi_in i)) by lia.
      split; [|exact D]. eapply done_sync; eauto. lia.
  - (* POP *)
    destruct BO as (I1 & O1 & Ef). rewrite Ef in E. injection E as <-.
    destruct (pop_ignore_ok c 1) as (c1 & -> & F & T1 & _ & _ & K); [lia|].
    assert (D : done c c1 (- Z.of_nat (vi_in i)) live' (skipn (vi_in i) st)) by (eapply done_drop; eauto; lia).
    exists c1, c1. split; [reflexivity|]. replace (Z.of_nat (vi_out i) - Z.of_nat (vi_in i)) with (- Z.of_nat (vi_in i)) by lia.
    split; [|exact D]. eapply done_sync; eauto. lia.
  - (* builtin *)
    destruct (sp_after_inputs_ok (vi_cin i) (vi_in i) (vi_out i) c R2) as (F & L1 & T1 & TR & NV & V & MO).
    set (c1 := sp_after_inputs (vi_cin i) (vi_in i) (vi_out i) c) in *.
    assert (FF := F). destruct FF as (G1 & G2 & G3 & G4 & _).
    assert (MO' : mem_operands c1 (vi_in i) = firstn (vi_in i) st).
    { rewrite MO. apply firstn_map_nth; auto. eapply operands_ok; eauto.
      - intros. eapply cin_nth; eauto.
      - apply LS1; auto. discriminate. }
    rewrite MO'. destruct (f w (firstn (vi_in i) st)) as [w' [outs|]] eqn:Ef; injection E as <-; [|reflexivity].
    specialize (LO' _ _ eq_refl). rewrite G4, <- LO'.
    destruct (builtin_done live live' c c1 st (vi_in i) outs SS N F T1) as (c3 & Q & D); auto; try lia.
    { intros o O. apply TR, T. lia. }
    { intros Q o x O. apply NV. lia. }
    { intros p Hp. apply V. lia. }
    eauto.
  - (* builtin writing at the top *)
    destruct BO as (I1 & O1). rewrite I1 in E, LO', LS2 |- *. cbn [firstn skipn] in E, LO'.
    destruct (f w []) as [w' [outs|]] eqn:Ef; injection E as <-; [|reflexivity].
    specialize (LO' _ _ eq_refl). rewrite <- LO'.
    destruct (builtin_done live live' c c st 0 outs SS) as (c3 & Q & D); auto; try lia.
    cbn [Z.of_nat skipn] in *. rewrite !Z.sub_0_r in Q, D. rewrite Z.sub_0_r. exists (mem_results c (c_slo c) outs), c3. split; [reflexivity|]. split; [rewrite (Z.sub_0_r (c_slo c)) in Q; exact Q|exact D].
  - (* folded constant *)
    destruct BO as (O1 & Ef). rewrite Ef in E by auto. injection E as <-.
    destruct (pop_ignore_ok c (vi_in i)) as (c1 & -> & F & T1 & _ & _ & K); [lia|].
    destruct (done_push live live' c c1 st (vi_in i) k SS) with (y := k) as (c2 & -> & D); auto; try lia.
    exists c2, c2. split; [reflexivity|]. replace (Z.of_nat (vi_out i) - Z.of_nat (vi_in i)) with (1 - Z.of_nat (vi_in i)) by lia.
    split; [|exact D]. eapply done_sync; eauto. lia.
  - (* EXP with constant base *)
    destruct BO as (I1 & O1 & C1 & Ef).
    assert (LS1' := LS1 NN CO0 ltac:(discriminate)).
    rewrite I1 in N. assert (Hf := firstn2 st N). set (b := nth 0 st 0) in *. set (e := nth 1 st 0) in *.
    rewrite I1 in E, FA. rewrite Hf in E, FA. rewrite (Ef w b e FA) in E.
    destruct (sp_after_inputs_with_ok (vi_cin i) (vi_in i) [1%nat] c) as (F & L1 & T1 & TR & V & VI & ME);
      [intros d [<- |[]]; lia|].
    set (c1 := sp_after_inputs_with (vi_cin i) (vi_in i) [1%nat] c) in *.
    assert (FF := F). destruct FF as (G1 & G2 & G3 & G4 & _).
    assert (Me : c_mem c1 (c_start c1 + c_slo c1 - Z.of_nat (vi_in i)) = e).
    { rewrite G3, G4, I1. replace (c_start c + c_slo c - Z.of_nat 2) with (c_start c + c_slo c - 1 - Z.of_nat 1) by lia.
      rewrite ME by (auto; now left). rewrite R3; [|lia|].
      - unfold e. f_equal. lia.
      - specialize (LS1' 1%nat ltac:(lia) C1). replace (c_start c + c_slo c - 1 - Z.of_nat 1) with (Z.of_nat (length st) - 1 - Z.of_nat 1) by lia.
        auto. }
    rewrite Me. destruct (pay w e) as [w' ok] eqn:Ep. cbn [fst snd] in E. destruct ok; injection E as <-; [|reflexivity].
    assert (OP : forall d, (d < 2)%nat -> operand (vi_cin i) c1 d d = nth d st 0).
    { intros d D. unfold operand. destruct (vi_cin i d) as [k|] eqn:Ec.
      - symmetry. eapply cin_nth; eauto; try lia. rewrite I1, Hf. exact FA.
      - rewrite T1, G3, R2, VI by (auto; lia). rewrite R3; [f_equal; lia|lia|].
        specialize (LS1' d ltac:(lia) Ec). replace (c_start c + c_slo c - 1 - Z.of_nat d) with (Z.of_nat (length st) - 1 - Z.of_nat d) by lia. auto. }
    assert (PD : forall c2 x, frame c1 c2 -> keeps c1 c2 -> v_top (c_vs c2) = c_slo c - 2 ->
      exists c3, cx_push c2 x = Some c3 /\ done c c3 (1 - Z.of_nat 2) live' (x :: skipn 2 st)).
    { intros c2 x F2 K2 T2. assert (FF2 := F2). destruct FF2 as (H1 & H2 & H3 & H4 & _).
      destruct (push_ok c2 x) as (c3 & -> & F3 & T3 & _ & _ & S3 & V3).
      { unfold inb. rewrite H1, H2, G1, G2, T2. lia. }
      exists c3. split; [reflexivity|]. split; [eapply frame_trans; [eapply frame_trans|]; eauto|].
      split; [lia|]. split; [|split].
      - intros o O. assert (F3b : v_base (c_vs c3) = v_base (c_vs c)) by (destruct F3; congruence).
        rewrite S3. destruct (_ =? _) eqn:Q; [discriminate|]. apply Z.eqb_neq in Q. apply K2, TR, T. lia.
      - apply (vals_app live live' c c3 st [x] 2); auto; try lia.
        + intros p Hp. apply LS2. lia.
        + intros p Hp. rewrite V3. destruct (Z.eqb_spec p (c_start c2 + v_top (c_vs c2))); [lia|].
          destruct K2 as [_ K2]. rewrite K2. apply V. lia.
        + cbn [length]. intros p Hp _. rewrite V3. destruct (Z.eqb_spec p (c_start c2 + v_top (c_vs c2))); [|lia].
          replace (1 - 1 - _)%nat with 0%nat by lia. reflexivity.
      - cbn [length]. rewrite skipn_length. lia. }
    rewrite I1. destruct reads.
    + destruct (popn_ok (vi_cin i) 2 c1) as (c2 & E2 & F2 & K2 & T2 & _); [lia| |].
      { intros d D. apply TR, T. lia. }
      rewrite E2, L1, L0. cbn [Z.opp Z.to_nat].
      rewrite (firstn_map_nth st 2 (fun d => operand (vi_cin i) c1 (0 + d) d)) by auto.
      destruct (PD c2 (r0 (firstn 2 st)) F2 K2) as (c3 & -> & D); [lia|].
      exists c3, c3. split; [reflexivity|]. replace (Z.of_nat (vi_out i) - Z.of_nat 2) with (1 - Z.of_nat 2) by lia.
      split; [|rewrite Hf in D; exact D]. eapply done_sync; eauto. lia.
    + destruct (pop_ignore_ok c1 2) as (c2 & -> & F2 & T2 & _ & _ & K2); [lia|].
      destruct (PD c2 (r0 []) F2 K2) as (c3 & -> & D); [lia|].
      exists c3, c3. split; [reflexivity|]. replace (Z.of_nat (vi_out i) - Z.of_nat 2) with (1 - Z.of_nat 2) by lia.
      split; [|exact D]. eapply done_sync; eauto. lia.
  - (* load with constant offset *)
    destruct BO as (I1 & O1 & Ef). rewrite I1 in N. assert (Hf := firstn1 st N). set (x := nth 0 st 0) in *.
    rewrite I1 in E, FA, LO'. rewrite Hf in E, FA, LO'. rewrite (Ef w x FA) in E, LO'.
    destruct (f w [k]) as [w' [outs|]] eqn:Efk; injection E as <-; [|reflexivity].
    specialize (LO' _ _ eq_refl). destruct outs as [|y [|? ?]]; cbn in LO'; try lia.
    destruct (mem_results_ok c (c_slo c - 1) [y]) as (F & V1 & L1 & M1).
    set (c1 := mem_results c (c_slo c - 1) [y]) in *.
    assert (FF := F). destruct FF as (G1 & G2 & G3 & G4 & _).
    assert (My : c_mem c1 (c_start c1 + c_slo c1 - 1) = y).
    { rewrite M1, G3, G4. cbn [length]. destruct (Z.leb_spec (c_start c + (c_slo c - 1)) (c_start c + c_slo c - 1)),
        (Z.ltb_spec (c_start c + c_slo c - 1) (c_start c + (c_slo c - 1) + Z.of_nat 1)); try lia. cbn [andb].
      replace (1 - 1 - _)%nat with 0%nat by lia. reflexivity. }
    rewrite My, G4, V1.
    destruct (set_at (c_vs c) (c_slo c - 1) y) as (v' & -> & U1 & U2 & U3 & U4); [unfold inb; lia|].
    assert (D : done c (with_vs c1 v') 0 live' (y :: skipn 1 st)).
    { split; [repeat split; cbn; try congruence; try apply F|]. split; [cbn; lia|]. split; [|split].
      - intros o O. cbn in *. rewrite U4. destruct (_ =? _); [discriminate|]. apply T. lia.
      - apply (vals_app live live' c (with_vs c1 v') st [y] 1); auto; try lia.
        + intros p Hp. apply LS2. lia.
        + intros p Hp. unfold slot_value, with_vs. cbn [c_vs c_mem c_start]. rewrite U4, G3. destruct (Z.eqb_spec (p - c_start c) (c_slo c - 1)); [lia|].
          rewrite M1. destruct (Z.leb_spec (c_start c + (c_slo c - 1)) p); [lia|]. reflexivity.
        + cbn [length]. intros p Hp _. unfold slot_value, with_vs. cbn [c_vs c_mem c_start]. rewrite U4, G3.
          destruct (Z.eqb_spec (p - c_start c) (c_slo c - 1)); [|lia]. replace (Z.to_nat _) with 0%nat by lia. reflexivity.
      - cbn [length]. rewrite skipn_length. lia. }
    exists (with_vs c1 v'), (with_vs c1 v'). split; [reflexivity|].
    replace (Z.of_nat (vi_out i) - Z.of_nat (vi_in i)) with 0 by lia. split; [|exact D].
    eapply done_sync; eauto. lia.
  - (* keccak256 with constant range *)
    destruct BO as (I1 & O1 & Ef). rewrite I1 in N. assert (Hf := firstn2 st N). set (a := nth 0 st 0) in *. set (b := nth 1 st 0) in *.
    rewrite I1 in E, FA, LO'. rewrite Hf in E, FA, LO'. rewrite (Ef w a b FA) in E, LO'.
    destruct (f w [off; len]) as [w' [outs|]] eqn:Efk; injection E as <-; [|reflexivity].
    specialize (LO' _ _ eq_refl).
    destruct (sp_after_inputs_with_ok (vi_cin i) (vi_in i) [] c) as (F & L1 & T1 & TR & V & _ & _); [easy|].
    set (c1 := sp_after_inputs_with (vi_cin i) (vi_in i) [] c) in *.
    assert (FF := F). destruct FF as (G1 & G2 & G3 & G4 & _).
    rewrite G4, I1, <- LO'.
    destruct (builtin_done live live' c c1 st 2 outs SS) as (c3 & Q & D); auto; try lia.
    { intros o O. apply TR, T. lia. }
    { intros p Hp. apply V. lia. }
    { intros p Hp. apply LS2. lia. }
    eauto.
Qed.

Lemma finish (live : Z -> Prop) c c2 diff st nh : done c c2 diff live st ->
  c_len c = c_start c + c_stored c ->
  v_base (c_vs c) <= c_slo c + diff <= v_base (c_vs c) + cap (c_vs c) ->
  let c' := leave nh (with_slo c2 (c_slo c2 + diff)) in
  section_state live c' st /\ v_base (c_vs c') = v_base (c_vs c) /\ cap (c_vs c') = cap (c_vs c) /\
  c_slo c' = c_slo c + diff /\ c_stored c' = c_stored c /\
  (nh = true -> forall p, 0 <= p < Z.of_nat (length st) -> live p -> c_mem c' p = nth (length st - 1 - Z.to_nat p) st 0).
Proof.
  intros (F & T & TR & V & H) LEN B. destruct F as (F1 & F2 & F3 & F4 & F5 & F6).
  destruct (leave_ok nh (with_slo c2 (c_slo c2 + diff))) as (G & L & T' & K & M).
  cbn zeta. set (c' := leave nh (with_slo c2 (c_slo c2 + diff))) in *.
  destruct G as (G1 & G2 & G3 & G4 & G5 & G6). cbn in G1, G2, G3, G4, G5, G6, T', M.
  assert (SV : forall p, slot_value c' p = slot_value c2 p) by (intros p; destruct K as [_ K]; rewrite K; reflexivity).
  split; [|repeat split; try congruence].
  - split; [split; [|split]|split; [|split]].
    + lia.
    + lia.
    + intros p P Lp. rewrite SV. now apply V.
    + rewrite G1, G2, G4. lia.
    + intros o O. destruct K as [K _]. apply K. cbn. apply TR. lia.
    + lia.
  - intros N p P Lp. rewrite (M N) by lia. unfold slot_value. cbn. apply V; auto.
Qed.

Definition at_point (head : bool) (live : Z -> Prop) c st : Prop :=
  if head then in_memory_on live c st else section_state live c st.

Lemma reset_slot a b o : - Z.of_nat a <= o < 0 -> vs_slot (vs_reset a b) o = Some Materialized.
Proof.
  intros H. unfold vs_slot. rewrite idx_inb.
  - unfold vs_reset. cbn. rewrite app_nth1 by (rewrite repeat_length; lia).
    rewrite (nth_indep _ None (Some Materialized)) by (rewrite repeat_length; lia). apply nth_repeat.
  - unfold inb, cap, vs_reset. cbn. rewrite app_length, !repeat_length. lia.
Qed.
Lemma reset_no_virtual a b o x : vs_slot (vs_reset a b) o <> Some (Virtual x).
Proof.
  unfold vs_slot. destruct (vs_idx _ _) as [k|]; [|discriminate]. cbn.
  destruct (Nat.ltb_spec k a).
  - rewrite app_nth1 by (rewrite repeat_length; lia).
    rewrite (nth_indep _ None (Some Materialized)) by (rewrite repeat_length; lia). rewrite nth_repeat. discriminate.
  - rewrite app_nth2 by (rewrite repeat_length; lia). rewrite nth_repeat. discriminate.
Qed.

Lemma enter_ok (live : Z -> Prop) i c st : at_point (is_head i) live c st ->
  let c' := with_lo (match vi_head i with Some (inputs, growth) => enter_section inputs growth c | None => c end) 0 in
  section_state live c' st /\ c_lo c' = 0 /\
  match vi_head i with
  | Some (a, b) => v_base (c_vs c') = - Z.of_nat a /\ v_base (c_vs c') + cap (c_vs c') = Z.of_nat b /\ c_slo c' = 0 /\ c_stored c' = 0
  | None => c_vs c' = c_vs c /\ c_slo c' = c_slo c /\ c_stored c' = c_stored c
  end.
Proof.
  unfold at_point, is_head. destruct (vi_head i) as [[a b]|]; cbn zeta.
  - intros (L & M). split; [|repeat split; unfold cap; cbn; rewrite ?app_length, ?repeat_length; lia].
    split; [split; [|split]|split; [|split]]; cbn.
    + lia.
    + reflexivity.
    + intros p P Lp. rewrite mem_slot_value; [now apply M|]. intros x. cbn. apply reset_no_virtual.
    + unfold cap. cbn. rewrite app_length, !repeat_length. lia.
    + intros o O. cbn in O. change (vs_slot (vs_reset a b) o <> None). rewrite reset_slot by auto. discriminate.
    + lia.
  - intros (R & B & T & L). split; [|repeat split]. split; [|repeat split; try apply B; auto]. exact R.
Qed.

Lemma store_len_ok (live : Z -> Prop) diff c st : section_state live c st ->
  let c' := store_len diff c in
  section_state live c' st /\ c_vs c' = c_vs c /\ c_lo c' = c_lo c /\ c_slo c' = c_slo c /\ c_start c' = c_start c /\
  c_stored c' = c_slo c + diff /\ c_len c' = c_start c + c_slo c + diff.
Proof.
  intros (R & B & T & L). unfold store_len. cbn zeta. destruct (Z.eqb_spec (c_slo c + diff) (c_stored c)) as [E|E].
  - repeat split; auto; try apply R; try apply B; lia.
  - split; [|repeat split]. split; [exact R|]. split; [exact B|]. split; [exact T|]. cbn. lia.
Qed.

(** A no-op'd instruction. *)
Lemma noop_done (live live' : Z -> Prop) i w c st r :
  section_state live c st ->
  v_base (c_vs c) <= c_slo c - Z.of_nat (vi_in i) ->
  c_slo c - Z.of_nat (vi_in i) + Z.of_nat (vi_out i) <= v_base (c_vs c) + cap (c_vs c) ->
  inst_ok i -> vi_noop i = true ->
  live_step i (Z.of_nat (length st)) live live' ->
  estep i w st = Some r ->
  exists st' c1, r = ENext w st' /\ sync_noop_diff (vi_cout i) (vi_diff i) c = Some c1 /\ done c c1 (vi_diff i) live' st'.
Proof.
  intros SS B1 B2 (CI & CO & BO & NO) NN LS E. assert (S' := SS). destruct S' as ((R1 & R2 & R3) & B' & T & LEN).
  destruct (NO NN) as (NE & NO'). unfold estep in E.
  destruct (Nat.ltb_spec (length st) (vi_in i)) as [|N]; [discriminate|].
  assert (DI : vi_diff i = Z.of_nat (vi_out i) - Z.of_nat (vi_in i)).
  { unfold vi_diff, suspends. destruct (vi_body i); try discriminate; lia. }
  rewrite DI. set (diff := Z.of_nat (vi_out i) - Z.of_nat (vi_in i)) in *.
  (* the virtual stack afterwards: nothing below the results changes *)
  assert (X : exists c1, sync_noop_diff (vi_cout i) diff c = Some c1 /\ frame c c1 /\ v_top (c_vs c1) = c_slo c + diff /\
     tracked c1 (c_slo c + diff) /\ (forall p, p < c_start c + c_slo c -> slot_value c1 p = slot_value c p)).
  { unfold sync_noop_diff. rewrite R2.
    destruct (Z.eqb_spec (c_slo c) (c_slo c + diff)) as [Q|Q].
    { exists c. repeat split; auto; try lia. rewrite <- Q. auto. }
    replace (c_slo c + diff - c_slo c) with diff by lia.
    destruct (Z.ltb_spec diff 0) as [D|D].
    { rewrite drop_ok by lia. eexists; split; [reflexivity|]. split; [repeat split|]. cbn. split; [lia|]. split; [|reflexivity].
      intros o O. cbn in *. apply T. lia. }
    assert (PM : exists v, vs_push_mems (c_vs c) (Z.to_nat diff) = Some v /\ v_base v = v_base (c_vs c) /\
       v_top v = c_slo c + diff /\ cap v = cap (c_vs c) /\ (forall o, v_base (c_vs c) <= o < c_slo c + diff -> vs_slot v o <> None) /\
       (forall o, o < c_slo c -> vs_slot v o = vs_slot (c_vs c) o)).
    { destruct (push_mems_ok (Z.to_nat diff) (c_vs c)) as (v & -> & V1 & V2 & V3 & V4); [lia|lia|].
      exists v. repeat split; auto; try lia.
      - intros o O. rewrite V4. destruct (_ && _) eqn:K; [discriminate|]. apply T.
        apply andb_false_iff in K as [K|K]; [apply Z.leb_gt in K|apply Z.ltb_ge in K]; lia.
      - intros o O. rewrite V4. destruct (Z.leb_spec (v_top (c_vs c)) o); [lia|reflexivity]. }
    assert (PP : forall k, diff = 1 -> exists v, vs_push (c_vs c) k = Some v /\ v_base v = v_base (c_vs c) /\
       v_top v = c_slo c + diff /\ cap v = cap (c_vs c) /\ (forall o, v_base (c_vs c) <= o < c_slo c + diff -> vs_slot v o <> None) /\
       (forall o, o < c_slo c -> vs_slot v o = vs_slot (c_vs c) o)).
    { intros k D1. destruct (push_slot_ok (c_vs c) (Virtual k)) as (v & Ev & V1 & V2 & V3 & V4); [unfold inb; lia|].
      exists v. split; [exact Ev|]. repeat split; auto; try lia.
      - intros o O. rewrite V4. destruct (Z.eqb_spec o (v_top (c_vs c))); [discriminate|]. apply T. lia.
      - intros o O. rewrite V4. destruct (Z.eqb_spec o (v_top (c_vs c))); [lia|reflexivity]. }
    assert (Y : exists v, match (if diff =? 1 then vi_cout i else None) with
         | Some k => vs_push (c_vs c) k | None => vs_push_mems (c_vs c) (Z.to_nat diff) end = Some v /\ v_base v = v_base (c_vs c) /\
       v_top v = c_slo c + diff /\ cap v = cap (c_vs c) /\ (forall o, v_base (c_vs c) <= o < c_slo c + diff -> vs_slot v o <> None) /\
       (forall o, o < c_slo c -> vs_slot v o = vs_slot (c_vs c) o)).
    { destruct (Z.eqb_spec diff 1); [destruct (vi_cout i); auto|auto]. }
    destruct Y as (v & -> & V1 & V2 & V3 & V4 & V5). eexists; split; [reflexivity|].
    split; [repeat split; cbn; auto|]. cbn. split; [lia|]. split.
    - intros o O. cbn in *. apply V4. lia.
    - intros p P. unfold slot_value. cbn. rewrite V5 by lia. reflexivity. }
  destruct X as (c1 & X & F & T1 & TR & V).
  assert (G : forall st', length st' = (length st - vi_in i + vi_out i)%nat ->
    (forall p, 0 <= p < Z.of_nat (length st') -> live' p ->
        p < Z.of_nat (length st) /\ live p /\ nth (length st' - 1 - Z.to_nat p) st' 0 = nth (length st - 1 - Z.to_nat p) st 0) ->
    exists st'' c1, ENext w st' = ENext w st'' /\ sync_noop_diff (vi_cout i) diff c = Some c1 /\ done c c1 diff live' st'').
  { intros st' H P. exists st', c1. split; [reflexivity|]. split; [exact X|].
    split; [exact F|]. split; [lia|]. split; [exact TR|]. split; [|lia].
    intros p Hp Lp. destruct (P p Hp Lp) as (P1 & P2 & P3). rewrite V by lia. rewrite P3. apply R3; auto. lia. }
  assert (K : forall k n (l : list Z) d, nth k (skipn n l) d = nth (n + k) l d).
  { clear. intros k n. induction n; intros; cbn; auto. destruct l; cbn; [now destruct k|auto]. }
  unfold live_step in LS. unfold body_ok in BO. destruct (vi_evm i) as [f|n|a b|f]; [| | |contradiction].
  - destruct (NO' w (firstn (vi_in i) st)) as (outs & Ef); [rewrite firstn_length; lia|]. rewrite Ef in E. injection E as <-.
    destruct BO as (LO & _). destruct LS as (_ & LS1 & LS2). specialize (LS2 NN).
    assert (HO : length outs = vi_out i).
    { apply (LO w (firstn (vi_in i) st)); [rewrite firstn_length; lia|now rewrite Ef]. }
    apply G.
    + rewrite app_length, skipn_length. lia.
    + intros p Hp Lp. rewrite app_length, skipn_length in *.
      assert (p < Z.of_nat (length st) - Z.of_nat (vi_in i)).
      { destruct (Z.ltb_spec p (Z.of_nat (length st) - Z.of_nat (vi_in i))); auto. exfalso. apply (LS2 p); auto. lia. }
      split; [lia|]. split; [apply LS1; auto; lia|].
      rewrite app_nth2 by lia. rewrite K. f_equal. lia.
  - injection E as <-. rewrite NN in LS. destruct LS as (LS1 & LS2). destruct (vi_body i) eqn:Eb; try contradiction.
    destruct BO as (<- & N1 & I1 & O1). apply G; [cbn [length]; lia|]. cbn [length]. intros p Hp Lp.
    assert (p <> Z.of_nat (length st)) by (intros ->; contradiction).
    split; [lia|]. split; [apply LS1; auto; lia|].
    replace (S (length st) - 1 - Z.to_nat p)%nat with (S (length st - 1 - Z.to_nat p)) by lia. reflexivity.
  - injection E as <-. rewrite NN in LS. destruct LS as (LS1 & LS2 & LS3). destruct (vi_body i) eqn:Eb; try contradiction.
    destruct BO as (-> & -> & N1 & I1 & O1). unfold swap_nth. apply G; [rewrite !length_upd; lia|].
    rewrite !length_upd. intros p Hp Lp.
    assert (p <> Z.of_nat (length st) - 1 - Z.of_nat n) by (intros ->; contradiction).
    assert (p <> Z.of_nat (length st) - 1 - Z.of_nat (n + m)) by (intros ->; contradiction).
    split; [lia|]. split; [apply LS1; auto; lia|].
    rewrite !nth_upd by (rewrite ?length_upd; lia).
    destruct (Nat.eqb_spec (length st - 1 - Z.to_nat p) (n + m)); [lia|].
    destruct (Nat.eqb_spec (length st - 1 - Z.to_nat p) n); [lia|]. reflexivity.
Qed.

(** A constant result. *)
Lemma const_done (live live' : Z -> Prop) i w c st r k :
  section_state live c st -> c_lo c = 0 ->
  v_base (c_vs c) <= c_slo c - Z.of_nat (vi_in i) ->
  c_slo c - Z.of_nat (vi_in i) + Z.of_nat (vi_out i) <= v_base (c_vs c) + cap (c_vs c) ->
  inst_ok i -> vi_noop i = false -> vi_cout i = Some k -> (1 <= vi_out i)%nat ->
  vi_fact i (firstn (vi_in i) st) ->
  live_step i (Z.of_nat (length st)) live live' ->
  estep i w st = Some r ->
  ((vi_out i =? 1) || (vi_out i =? vi_in i + 1))%nat = true /\
  exists st' c1 c2, r = ENext w st' /\ cx_pop_ignore c (vi_in i + 1 - vi_out i) = Some c1 /\ cx_push c1 k = Some c2 /\
     done c c2 (vi_diff i) live' st'.
Proof.
  intros SS L0 B1 B2 (CI & CO & BO & NO) NN Ck O1 FA LS E. assert (S' := SS). destruct S' as ((R1 & R2 & R3) & B' & T & LEN).
  unfold estep in E. destruct (Nat.ltb_spec (length st) (vi_in i)) as [|N]; [discriminate|].
  specialize (CO k Ck). unfold body_ok in BO. unfold live_step in LS.
  assert (FN : length (firstn (vi_in i) st) = vi_in i) by (rewrite firstn_length; lia).
  destruct (vi_evm i) as [f|n|a b|f] eqn:Ev; try contradiction.
  - destruct CO as (O & NE & CO). rewrite (CO w _ FN FA) in E. injection E as <-.
    assert (DI : vi_diff i = 1 - Z.of_nat (vi_in i)).
    { unfold vi_diff, suspends. destruct (vi_body i); try discriminate; lia. }
    rewrite O, DI. split; [reflexivity|].
    replace (vi_in i + 1 - 1)%nat with (vi_in i) by lia.
    destruct (pop_ignore_ok c (vi_in i)) as (c1 & P1 & F & T1 & _ & _ & K); [lia|].
    destruct LS as (_ & LS2 & _).
    destruct (done_push live live' c c1 st (vi_in i) k SS) with (y := k) as (c2 & P2 & D); auto; try lia.
    exists (k :: skipn (vi_in i) st), c1, c2. repeat split; auto; apply D.
  - injection E as <-. destruct (vi_body i) eqn:Eb; try contradiction. destruct BO as (<- & N1 & I1 & O2).
    rewrite NN in LS. destruct LS as (LS1 & LS2).
    assert (DI : vi_diff i = 1 - Z.of_nat 0). { unfold vi_diff, suspends. rewrite Eb. lia. }
    rewrite DI. split; [destruct (Nat.eqb_spec (vi_out i) (vi_in i + 1)); [apply orb_true_r|lia]|].
    replace (vi_in i + 1 - vi_out i)%nat with 0%nat by lia.
    destruct (pop_ignore_ok c 0) as (c1 & P1 & F & T1 & _ & _ & K); [lia|].
    destruct (done_push live live' c c1 st 0 k SS) with (y := nth (n - 1) st 0) as (c2 & P2 & D); auto; try lia.
    { intros p Hp. apply LS1. lia. }
    { intros _. rewrite <- (CO _ FN FA). apply nth_firstn_lt. lia. }
    exists (nth (n - 1) st 0 :: st), c1, c2. repeat split; auto; apply D.
Qed.

(** Popping a jump operand. *)
Lemma jump_pop_ok (live : Z -> Prop) i st read c0 c n : section_state live c0 st -> c_lo c0 = 0 -> (n < vi_in i)%nat ->
  (vi_in i <= length st)%nat -> v_base (c_vs c0) <= c_slo c0 - Z.of_nat (vi_in i) ->
  const_inputs_ok i -> vi_fact i (firstn (vi_in i) st) ->
  (forall d, (d < vi_in i)%nat -> vi_cin i d = None -> live (Z.of_nat (length st) - 1 - Z.of_nat d)) ->
  frame c0 c -> keeps c0 c -> v_top (c_vs c) = c_slo c0 - Z.of_nat n -> c_lo c = - Z.of_nat n ->
  exists c', jump_pop i read c = Some (ignoring read (nth n st 0), c') /\
  frame c0 c' /\ keeps c0 c' /\ v_top (c_vs c') = c_slo c0 - Z.of_nat (S n) /\ c_lo c' = - Z.of_nat (S n).
Proof.
  intros SS L0 N NI B CI FA LV F K TT LL. assert (S' := SS). destruct S' as ((R1 & R2 & R3) & B' & T & LEN).
  assert (FF := F). destruct FF as (G1 & G2 & G3 & G4 & _).
  unfold jump_pop, ignoring. destruct read.
  - destruct (popn_ok (vi_cin i) 1 c) as (c' & -> & F' & K' & T' & L' & M'); [lia| |].
    { intros d D. apply K, T. lia. }
    rewrite LL. cbn [seq map]. replace (Z.to_nat (- - Z.of_nat n) + 0)%nat with n by lia.
    exists c'. split; [|repeat split; try (eapply frame_trans; eauto); try (eapply keeps_trans; eauto); lia].
    f_equal. f_equal. rewrite <- (operands_ok live c0 st (vi_cin i) (vi_in i) SS NI) with (d := n); auto.
    + unfold operand. rewrite TT, G3. destruct (vi_cin i n); [reflexivity|]. destruct K as [_ K]. rewrite K. f_equal. lia.
    + intros. eapply cin_nth; eauto.
  - destruct (pop_ignore_ok c 1) as (c' & -> & F' & T' & L' & _ & K'); [lia|].
    exists c'. split; [reflexivity|]. split; [eapply frame_trans; eauto|]. split; [eapply keeps_trans; eauto|]. lia.
Qed.

Lemma mem_list_ok st m : let m' := fst (fold_left (fun '(m, p) x => (mset m p x, p + 1)) (rev st) (m, 0)) in
  forall p, 0 <= p < Z.of_nat (length st) -> m' p = nth (length st - 1 - Z.to_nat p) st 0.
Proof.
  cbn zeta. intros p P. rewrite mset_list, rev_length.
  destruct (Z.leb_spec 0 p), (Z.ltb_spec p (0 + Z.of_nat (length st))); try lia. cbn [andb].
  rewrite rev_nth by lia. f_equal. lia.
Qed.

Lemma exit_ok (live live' : Z -> Prop) i w c st r :
  section_state live c st -> c_lo c = 0 -> c_stored c = c_slo c + vi_diff i ->
  v_base (c_vs c) <= c_slo c - Z.of_nat (vi_in i) ->
  c_slo c - Z.of_nat (vi_in i) + Z.of_nat (vi_out i) <= v_base (c_vs c) + cap (c_vs c) ->
  inst_ok i -> is_exit (vi_body i) = true -> vi_noop i = false -> vi_cout i = None ->
  vi_fact i (firstn (vi_in i) st) ->
  live_step i (Z.of_nat (length st)) live live' ->
  estep i w st = Some r ->
  match r with
  | EHalt w' => run_exit i w c = Some (RHalt w')
  | ENext w' st' => exists c', run_exit i w c = Some (RNext w' c') /\ in_memory_on live' c' st'
  end.
Proof.
  intros SS L0 ST B1 B2 (CI & CO & BO & _) NE NN NC FA LS E.
  assert (S' := SS). destruct S' as ((R1 & R2 & R3) & B' & T & LEN).
  unfold estep in E. destruct (Nat.ltb_spec (length st) (vi_in i)) as [|N]; [discriminate|].
  assert (FN : length (firstn (vi_in i) st) = vi_in i) by (rewrite firstn_length; lia).
  unfold body_ok in BO. unfold live_step in LS. unfold run_exit, sem_of.
  destruct (vi_evm i) as [f|n|a b|f] eqn:Ev.
  2:{ destruct (vi_body i); contradiction || discriminate. }
  2:{ destruct (vi_body i); contradiction || discriminate. }
  2:{ (* call *)
    destruct (vi_body i) eqn:Eb; try contradiction. destruct LS as (LS1 & LS2).
    assert (DI : vi_diff i = - Z.of_nat (vi_in i)). { unfold vi_diff, suspends. rewrite Eb. lia. }
    destruct (sp_after_inputs_ok (vi_cin i) (vi_in i) (vi_out i) c R2) as (F & L1 & T1 & TR & NV & V & MO).
    set (c1 := sp_after_inputs (vi_cin i) (vi_in i) (vi_out i) c) in *.
    assert (FF := F). destruct FF as (G1 & G2 & G3 & G4 & G5 & G6).
    assert (MO' : mem_operands c1 (vi_in i) = firstn (vi_in i) st).
    { rewrite MO. apply firstn_map_nth; auto. eapply operands_ok; eauto. intros. eapply cin_nth; eauto. }
    rewrite MO'.
    destruct (leave_ok true c1) as (H & _ & _ & _ & M). cbn [leave] in H, M. set (c2 := materialize_live c1) in *.
    destruct H as (H1 & H2 & H3 & H4 & H5 & H6).
    assert (LE : c_len c2 = Z.of_nat (length st - vi_in i)) by lia.
    assert (STK : rev (map (c_mem c2) (zrange 0 (c_len c2))) = skipn (vi_in i) st).
    { rewrite LE. apply (nth_ext _ _ 0 0).
      - rewrite rev_length, map_length, skipn_length. unfold zrange. rewrite map_length, seq_length. lia.
      - intros k Hk. rewrite rev_length, map_length in Hk. unfold zrange in *. rewrite map_length, seq_length in Hk.
        rewrite map_map. rewrite rev_nth by (rewrite map_length, seq_length; lia). rewrite map_length, seq_length.
        set (kk := (Z.to_nat (Z.of_nat (length st - vi_in i) - 0) - S k)%nat).
        rewrite (nth_indep _ 0 (c_mem c2 (0 + Z.of_nat 0))) by (rewrite map_length, seq_length; lia).
        rewrite (map_nth (fun x => c_mem c2 (0 + Z.of_nat x))). rewrite seq_nth by lia.
        rewrite M by (auto; lia). rewrite V by lia. rewrite R3; [|lia|apply LS2; lia].
        assert (KK : forall k n (l : list Z) d, nth k (skipn n l) d = nth (n + k) l d).
        { clear. intros k n. induction n; intros; cbn; auto. destruct l; cbn; [now destruct k|auto]. }
        rewrite KK. f_equal. lia. }
    rewrite STK. destruct (f w (firstn (vi_in i) st) (skipn (vi_in i) st)) as [w' [st'|]] eqn:Ef; injection E as <-; [|reflexivity].
    eexists. split; [reflexivity|]. split; [reflexivity|]. intros p P _. cbn [c_mem]. now apply mem_list_ok. }
  destruct BO as (LO & BO). destruct LS as (LS1 & LS2 & _).
  destruct (vi_body i) eqn:Eb; try discriminate.
  - (* halt *)
    destruct BO as (I1 & O1 & H). rewrite I1 in E. cbn [firstn] in E. specialize (H w).
    destruct (f w []) as [w' o]. cbn in H. subst o. injection E as <-. reflexivity.
  - (* return with constant range *)
    destruct BO as (I1 & O1 & H & Ef). destruct (pop_ignore_ok c 2) as (c1 & -> & _); [lia|].
    rewrite I1 in N, E, FA. rewrite (firstn2 st N) in E, FA. rewrite Ef in E by auto. specialize (H w [off; len]).
    destruct (f w [off; len]) as [w' o]. cbn in H. subst o. injection E as <-. reflexivity.
  - (* return *)
    destruct BO as (O1 & H).
    destruct (sp_after_inputs_ok (vi_cin i) (vi_in i) (vi_out i) c R2) as (F & L1 & T1 & TR & NV & V & MO).
    set (c1 := sp_after_inputs (vi_cin i) (vi_in i) (vi_out i) c) in *.
    assert (FF := F). destruct FF as (G1 & G2 & G3 & G4 & G5 & G6).
    assert (MO' : mem_operands c1 (vi_in i) = firstn (vi_in i) st).
    { rewrite MO. apply firstn_map_nth; auto. eapply operands_ok; eauto.
      - intros. eapply cin_nth; eauto.
      - apply LS1; auto. discriminate. }
    rewrite MO'.
    assert (DI : vi_diff i = - Z.of_nat (vi_in i)). { unfold vi_diff, suspends. rewrite Eb. lia. }
    destruct (sync_ok (vi_out i) (vi_diff i) c1) as (c2 & -> & _).
    { rewrite G1, G2. lia. }
    { lia. }
    { intros o O. apply TR, T. lia. }
    specialize (H w (firstn (vi_in i) st)). destruct (f w (firstn (vi_in i) st)) as [w' o]. cbn in H. subst o.
    injection E as <-. reflexivity.
  - (* jump *)
    assert (DI : vi_diff i = Z.of_nat (vi_out i) - Z.of_nat (vi_in i)). { unfold vi_diff, suspends. rewrite Eb. lia. }
    assert (LS1' := LS1 NN NC ltac:(discriminate)).
    assert (FIN : forall c1, frame c c1 -> keeps c c1 -> v_top (c_vs c1) = c_slo c - Z.of_nat (vi_in i) -> vi_out i = 0%nat ->
      in_memory_on live' (with_slo (materialize_live c1) (c_slo (materialize_live c1) + vi_diff i)) (skipn (vi_in i) st)).
    { intros c1 F K T1 O1. destruct (leave_ok true c1) as (H & _ & _ & _ & M). cbn [leave] in H, M.
      destruct F as (F1 & F2 & F3 & F4 & F5 & F6). destruct H as (H1 & H2 & H3 & H4 & H5 & H6).
      split; unfold with_slo; cbn [c_mem c_len].
      - rewrite skipn_length. lia.
      - intros p P Lp. rewrite skipn_length in *. rewrite M by (auto; lia). destruct K as [_ K]. rewrite K.
        rewrite R3; [|lia|apply LS2; auto; lia].
        assert (KK : forall k n (l : list Z) d, nth k (skipn n l) d = nth (n + k) l d).
        { clear. intros k n. induction n; intros; cbn; auto. destruct l; cbn; [now destruct k|auto]. }
        rewrite KK. f_equal. lia. }
    destruct cond as [rc|].
    + destruct BO as (I1 & O1 & Ef).
      destruct (jump_pop_ok live i st read_target c c 0) as (c1 & -> & F1 & K1 & T1 & L1); auto; try lia.
      destruct (jump_pop_ok live i st rc c c1 1) as (c2 & -> & F2 & K2 & T2 & L2); auto; try lia.
      assert (H2 : firstn (vi_in i) st = [nth 0 st 0; nth 1 st 0]) by (rewrite I1; apply firstn2; lia).
      rewrite H2 in E, FA. rewrite Ef in E by auto.
      destruct (f w [ignoring read_target (nth 0 st 0); ignoring rc (nth 1 st 0)]) as [w' [outs|]] eqn:Q; injection E as <-; [|reflexivity].
      eexists. split; [reflexivity|].
      assert (outs = []).
      { apply length_zero_iff_nil. rewrite <- O1. apply (LO w [ignoring read_target (nth 0 st 0); ignoring rc (nth 1 st 0)]);
        [rewrite I1; reflexivity|now rewrite Q]. }
      subst outs. apply FIN; auto. lia.
    + destruct BO as (I1 & O1 & Ef).
      destruct (jump_pop_ok live i st read_target c c 0) as (c1 & -> & F1 & K1 & T1 & L1); auto; try lia.
      assert (H2 : firstn (vi_in i) st = [nth 0 st 0]) by (rewrite I1; apply firstn1; lia).
      rewrite H2 in E, FA. rewrite Ef in E by auto.
      destruct (f w [ignoring read_target (nth 0 st 0)]) as [w' [outs|]] eqn:Q; injection E as <-; [|reflexivity].
      eexists. split; [reflexivity|].
      assert (outs = []).
      { apply length_zero_iff_nil. rewrite <- O1. apply (LO w [ignoring read_target (nth 0 st 0)]);
        [rewrite I1; reflexivity|now rewrite Q]. }
      subst outs. apply FIN; auto. lia.
  - contradiction.
Qed.

(** Where an instruction leaves the compiled state; [nh] says that the next instruction is a head. *)
Definition after i (nh : bool) (live : Z -> Prop) c st : Prop :=
  if is_exit (vi_body i) then in_memory_on live c st
  else section_state live c st /\ (nh = true -> vi_noop i = false -> in_memory_on live c st).
(** The section an instruction belongs to, when the one before it belongs to [sec]. *)
Definition section_of i (sec : Z * Z * Z) : Z * Z * Z :=
  match vi_head i with Some (a, b) => (0, Z.of_nat a, Z.of_nat b) | None => sec end.
Definition in_section c (sec : Z * Z * Z) : Prop :=
  let '(slo, inp, gr) := sec in c_slo c = slo /\ v_base (c_vs c) = - inp /\ v_base (c_vs c) + cap (c_vs c) = gr.

Lemma step_ok (live live' : Z -> Prop) i nh w c st r sec :
  at_point (is_head i) live c st -> (is_head i = false -> in_section c sec) ->
  (let '(slo, inp, gr) := section_of i sec in
   - inp <= slo - Z.of_nat (vi_in i) /\ slo - Z.of_nat (vi_in i) + Z.of_nat (vi_out i) <= gr) ->
  inst_ok i -> vi_fact i (firstn (vi_in i) st) ->
  live_step i (Z.of_nat (length st)) live live' ->
  estep i w st = Some r ->
  match r with
  | EHalt w' => vstep i nh w c = Some (RHalt w')
  | ENext w' st' => exists c', vstep i nh w c = Some (RNext w' c') /\ after i nh live' c' st' /\
      (is_exit (vi_body i) = false ->
       let '(slo, inp, gr) := section_of i sec in in_section c' (slo - Z.of_nat (vi_in i) + Z.of_nat (vi_out i), inp, gr))
  end.
Proof.
  intros A IS BD IO FA LS E. unfold vstep.
  destruct (enter_ok live i c st A) as (SS & L0 & HD).
  set (c0 := with_lo _ 0) in *.
  assert (SEC : in_section c0 (section_of i sec)).
  { unfold section_of. unfold is_head in *. destruct (vi_head i) as [[a b]|].
    - unfold in_section. intuition lia.
    - destruct sec as [[slo inp] gr]. destruct HD as (H1 & H2 & H3). unfold in_section. rewrite H1, H2. now apply IS. }
  destruct (section_of i sec) as [[slo inp] gr]. destruct SEC as (S1 & S2 & S3). destruct BD as (BD1 & BD2).
  assert (B1 : v_base (c_vs c0) <= c_slo c0 - Z.of_nat (vi_in i)) by lia.
  assert (B2 : c_slo c0 - Z.of_nat (vi_in i) + Z.of_nat (vi_out i) <= v_base (c_vs c0) + cap (c_vs c0)) by lia.
  assert (DI : is_exit (vi_body i) = false -> vi_diff i = Z.of_nat (vi_out i) - Z.of_nat (vi_in i)).
  { intros NE. unfold vi_diff, suspends. destruct (vi_body i); try discriminate; lia. }
  clearbody c0. clear A IS HD.
  destruct (vi_noop i) eqn:NN.
  - assert (IO' := IO). destruct IO as (CI & CO & BO & NO). destruct (NO NN) as (NE & _). specialize (DI NE).
    destruct (noop_done live live' i w c0 st r) as (st' & c1 & -> & -> & D); auto.
    destruct (finish live' c0 c1 (vi_diff i) st' nh D) as (F1 & F2 & F3 & F4 & F5 & F6); [apply SS|lia|].
    eexists. split; [reflexivity|]. unfold after. rewrite NE. split; [split; [exact F1|intros; congruence]|].
    intros _. unfold in_section. lia.
  - destruct (store_len_ok live (vi_diff i) c0 st SS) as (SS' & V' & L' & O' & ST' & SD & LN).
    set (c1 := store_len (vi_diff i) c0) in *. clearbody c1.
    rewrite <- O', <- V' in *. rewrite <- L' in L0.
    assert (FIN : forall c2 w' st', is_exit (vi_body i) = false -> done c1 c2 (vi_diff i) live' st' ->
      exists c', Some (RNext w' (leave nh (with_slo c2 (c_slo c2 + vi_diff i)))) = Some (RNext w' c') /\ after i nh live' c' st' /\
      (is_exit (vi_body i) = false -> in_section c' (slo - Z.of_nat (vi_in i) + Z.of_nat (vi_out i), inp, gr))).
    { intros c2 w' st' NE D. specialize (DI NE). eexists. split; [reflexivity|].
      destruct (finish live' c1 c2 (vi_diff i) st' nh D) as (F1 & F2 & F3 & F4 & F5 & F6); [apply SS'|lia|].
      split; [|intros _; unfold in_section; lia]. unfold after. rewrite NE. split; [exact F1|].
      intros Hn _. split; [|now apply F6]. destruct F1 as ((F1 & _) & _ & _ & F7). lia. }
    destruct (if (1 <=? vi_out i)%nat then vi_cout i else None) as [k|] eqn:Ck.
    + destruct (Nat.leb_spec 1 (vi_out i)) as [O1|]; [|discriminate].
      destruct (const_done live live' i w c1 st r k) as (-> & st' & c2 & c3 & -> & -> & -> & D); auto.
      apply FIN; auto. destruct IO as (_ & CO & BO & _). specialize (CO k Ck). unfold body_ok in BO.
      destruct (vi_evm i); try contradiction; [apply CO|]. destruct (vi_body i); try contradiction. reflexivity.
    + destruct (is_exit (vi_body i)) eqn:NE.
      * assert (CO0 : vi_cout i = None).
        { destruct (vi_cout i) as [k|] eqn:Ek; [|reflexivity]. exfalso. destruct IO as (_ & CO & BO & _). specialize (CO k Ek).
          unfold body_ok in BO. destruct (vi_evm i); try contradiction.
          - destruct CO as (_ & CO & _). congruence.
          - destruct (vi_body i); try contradiction. discriminate. }
        assert (X := exit_ok live live' i w c1 st r SS' L0 SD B1 B2 IO NE NN CO0 FA LS E).
        destruct r as [w'|w' st']; [exact X|]. destruct X as (c' & X & M). exists c'. split; [exact X|].
        unfold after. rewrite NE. split; [exact M|discriminate].
      * assert (X := arm_ok live live' i w c1 st r SS' L0 B1 B2 IO NE NN Ck FA LS E).
        destruct r as [w'|w' st']; [now rewrite X|]. destruct X as (c2 & c3 & -> & X & D). rewrite <- DI in X, D by auto. rewrite X.
        apply FIN; auto.
Qed.

(** The liveness along a run. *)
Fixpoint lives (l : list (vinst W)) w st (live live_end : Z -> Prop) : Prop :=
  match l with
  | [] => forall p, 0 <= p < Z.of_nat (length st) -> live_end p -> live p
  | i :: tl =>
    exists live', live_step i (Z.of_nat (length st)) live live' /\
    match estep i w st with Some (ENext w' st') => lives tl w' st' live' live_end | _ => True end
  end.

Lemma exit_leaves i w st w' st' : inst_ok i -> is_exit (vi_body i) = true -> estep i w st = Some (ENext w' st') ->
  leaves (vi_body i) = true.
Proof.
  intros (_ & _ & BO & _) X E. unfold body_ok in BO. unfold estep in E. destruct (length st <? vi_in i)%nat; [discriminate|].
  destruct (vi_body i) eqn:EB; try discriminate X; try reflexivity; exfalso; destruct (vi_evm i) eqn:EV; try contradiction.
  - destruct BO as (_ & B1 & _ & B3). rewrite B1 in E. cbn [firstn] in E. specialize (B3 w). match type of E with context [?g w []] => destruct (g w []) as [w1 [o|]] end; [discriminate B3|discriminate E].
  - destruct BO as (_ & _ & _ & B3 & _). specialize (B3 w (firstn (vi_in i) st)). match type of E with context [?g w (firstn _ _)] => destruct (g w (firstn (vi_in i) st)) as [w1 [o|]] end; [discriminate B3|discriminate E].
  - destruct BO as (_ & _ & B3). specialize (B3 w (firstn (vi_in i) st)). match type of E with context [?g w (firstn _ _)] => destruct (g w (firstn (vi_in i) st)) as [w1 [o|]] end; [discriminate B3|discriminate E].
Qed.

Lemma run_ok l : forall w c st r sec (live live_end : Z -> Prop) nh,
  Forall inst_ok l -> ends_ok l nh -> facts_hold l w st -> lives l w st live live_end ->
  (let '(slo, inp, gr) := sec in fits slo inp gr l) ->
  (match l with
   | i :: _ => at_point (is_head i) live c st /\ (is_head i = false -> in_section c sec)
   | [] => True
   end) ->
  erun l w st = Some r ->
  match r with
  | EHalt w' => vrun l nh w c = Some (RHalt w')
  | ENext w' st' =>
    exists c', vrun l nh w c = Some (RNext w' c') /\ (l = [] -> c' = c) /\
      (l <> [] -> (nh = true -> in_memory_on live_end c' st') /\
                  (last_exit l = false -> section_state live_end c' st'))
  end.
Proof.
  induction l as [|i tl IH]; intros w c st r sec live live_end nh OK EN FA LV FT PT E.
  { cbn in E. injection E as <-. exists c. repeat split; auto; congruence. }
  cbn [erun] in E. cbn [vrun]. cbn [facts_hold] in FA. destruct FA as (FA & FA').
  cbn [lives] in LV. destruct LV as (live' & LS & LV). inversion OK as [|? ? O1 O2]; subst.
  destruct PT as (P1 & P2). destruct sec as [[slo inp] gr]. cbn [fits] in FT.
  set (nh' := match tl with j :: _ => is_head j | [] => nh end).
  assert (BD : let '(slo, inp, gr) := section_of i (slo, inp, gr) in
     - inp <= slo - Z.of_nat (vi_in i) /\ slo - Z.of_nat (vi_in i) + Z.of_nat (vi_out i) <= gr /\
     fits (slo - Z.of_nat (vi_in i) + Z.of_nat (vi_out i)) inp gr tl).
  { unfold section_of. destruct (vi_head i) as [[a b]|]; exact FT. }
  destruct (estep i w st) as [r1|] eqn:E1; [|discriminate].
  assert (X := step_ok live live' i nh' w c st r1 (slo, inp, gr) P1 P2).
  destruct (section_of i (slo, inp, gr)) as [[slo1 inp1] gr1]. destruct BD as (BD1 & BD2 & BD3).
  specialize (X (conj BD1 BD2) O1 FA LS E1).
  destruct r1 as [w1|w1 st1]; [injection E as <-; now rewrite X|].
  destruct X as (c1 & -> & A & SEC).
  assert (EN' : (is_exit (vi_body i) = true -> nh' = true) /\ (vi_noop i = true -> nh' = false) /\ ends_ok tl nh).
  { cut ((leaves (vi_body i) = true -> nh' = true) /\ (vi_noop i = true -> nh' = false) /\ ends_ok tl nh); [|destruct tl; exact EN].
    intros (X1 & X2). split; [|exact X2]. intros X. apply X1. exact (exit_leaves _ _ _ _ _ O1 X E1). }
  destruct EN' as (EX & EH & EN').
  destruct tl as [|j tl].
  - cbn in E. injection E as <-. exists c1. cbn in nh'. subst nh'. split; [reflexivity|]. split; [discriminate|].
    cbn [lives] in LV. intros _. cbn [last_exit]. unfold after in A.
    assert (W1 : forall c, in_memory_on live' c st1 -> in_memory_on live_end c st1).
    { intros x (A1 & A2). split; auto. }
    assert (W2 : forall c, section_state live' c st1 -> section_state live_end c st1).
    { intros x ((A1 & A2 & A3) & A4). split; [|exact A4]. split; [exact A1|]. split; [exact A2|]. auto. }
    destruct (is_exit (vi_body i)).
    + split; [auto|discriminate].
    + destruct A as (A1 & A2). split; [|auto]. intros N. apply W1, A2; auto.
      destruct (vi_noop i); [|reflexivity]. rewrite EH in N by reflexivity. discriminate.
  - specialize (IH w1 c1 st1 r (slo1 - Z.of_nat (vi_in i) + Z.of_nat (vi_out i), inp1, gr1) live' live_end nh O2 EN' FA' LV BD3).
    assert (PT : at_point (is_head j) live' c1 st1 /\ (is_head j = false -> in_section c1 (slo1 - Z.of_nat (vi_in i) + Z.of_nat (vi_out i), inp1, gr1))).
    { cbn in nh'. subst nh'. unfold after in A. unfold at_point. destruct (is_exit (vi_body i)).
      - rewrite EX by reflexivity. split; [exact A|discriminate].
      - split; [|intros _; now apply SEC]. destruct A as (A1 & A2). destruct (is_head j); [|exact A1]. apply A2; [reflexivity|].
        destruct (vi_noop i); [|reflexivity]. specialize (EH eq_refl). discriminate. }
    specialize (IH PT E). destruct r as [w'|w' st']; [exact IH|].
    destruct IH as (c' & V & _ & P). exists c'. split; [exact V|]. split; [discriminate|]. intros _.
    destruct P as (Pa & Pb); [discriminate|]. split; [exact Pa|]. exact Pb.
Qed.
End Step.

(** ** The run without no-ops, and spilling *)
Lemma lives_all {W} (l : list (vinst W)) : Forall (fun i => vi_noop i = false) l -> forall w st,
  lives l w st (fun _ => True) (fun _ => True).
Proof.
  induction 1 as [|i tl H _ IH]; intros w st; cbn; [auto|].
  exists (fun _ => True). split.
  - unfold live_step. rewrite H. destruct (vi_evm i); repeat split; auto; discriminate.
  - destruct (estep i w st) as [[]|]; auto.
Qed.

Lemma fits_app {W} (l1 l2 : list (vinst W)) : forall slo inp gr, fits slo inp gr (l1 ++ l2) -> fits slo inp gr l1.
Proof.
  induction l1 as [|i tl IH]; intros slo inp gr H; [exact I|]. cbn [app fits] in *.
  destruct (vi_head i) as [[a b]|]; destruct H as (H1 & H2 & H3); eauto.
Qed.
Lemma ends_app {W} (l1 l2 : list (vinst W)) nh : ends_ok (l1 ++ l2) nh ->
  ends_ok l1 (match l2 with j :: _ => is_head j | [] => nh end).
Proof.
  induction l1 as [|i tl IH]; intros H; [exact I|]. cbn [app ends_ok] in *. destruct H as (H1 & H2 & H3).
  destruct tl as [|j tl]; [|exact (conj H1 (conj H2 (IH H3)))].
  cbn [app] in *. split; [exact H1|]. split; [exact H2|]. exact I.
Qed.
Lemma vrun_app {W} (l1 l2 : list (vinst W)) nh : forall w c,
  vrun (l1 ++ l2) nh w c =
  match vrun l1 (match l2 with j :: _ => is_head j | [] => nh end) w c with
  | Some (RNext w' c') => vrun l2 nh w' c'
  | r => r
  end.
Proof.
  induction l1 as [|i tl IH]; intros w c; [reflexivity|]. cbn [app vrun].
  replace (match tl ++ l2 with [] => nh | j :: _ => is_head j end) with
    (match tl with [] => match l2 with [] => nh | j :: _ => is_head j end | j :: _ => is_head j end) by (destruct tl; reflexivity).
  destruct (vstep i _ w c) as [[w'|w' c']|]; auto.
Qed.

Lemma represents_ok {W} (l1 l2 : list (vinst W)) nh w c st r :
  Forall inst_ok (l1 ++ l2) -> Forall (fun i => vi_noop i = false) (l1 ++ l2) ->
  ends_ok (l1 ++ l2) nh -> fits 0 0 0 (l1 ++ l2) -> starts_head (l1 ++ l2) ->
  in_memory c st -> facts_hold l1 w st -> erun l1 w st = Some r ->
  let next_head := match l2 with j :: _ => is_head j | [] => nh end in
  match r with
  | EHalt w' => vrun (l1 ++ l2) nh w c = Some (RHalt w')
  | ENext w' st' =>
    exists c', vrun l1 next_head w c = Some (RNext w' c') /\
               vrun (l1 ++ l2) nh w c = vrun l2 nh w' c' /\
               (next_head = true -> in_memory c' st') /\
               (l1 <> [] -> last_exit l1 = false -> represents c' st')
  end.
Proof.
  intros OK NN EN FT SH M FA E. cbn zeta. rewrite vrun_app.
  set (nh' := match l2 with [] => nh | j :: _ => is_head j end).
  apply Forall_app in OK as [OK _]. apply Forall_app in NN as [NN _].
  assert (X := run_ok l1 w c st r (0, 0, 0) (fun _ => True) (fun _ => True) nh' OK (ends_app _ _ _ EN) FA (lives_all _ NN w st)
    (fits_app _ _ _ _ _ FT)).
  destruct l1 as [|i tl].
  - cbn in E. injection E as <-. exists c. split; [reflexivity|]. split; [reflexivity|]. split; [|congruence].
    intros _. exact M.
  - assert (PT : at_point (is_head i) (fun _ => True) c st /\ (is_head i = false -> in_section c (0, 0, 0))).
    { cbn in SH. rewrite SH. split; [exact M|discriminate]. }
    specialize (X PT E).
    destruct r as [w'|w' st'].
    + now rewrite X.
    + destruct X as (c' & X & _ & P). destruct P as (P1 & P2); [discriminate|]. exists c'. rewrite X. split; [reflexivity|].
      split; [reflexivity|]. split; [exact P1|]. intros _ LE. exact (proj1 (P2 LE)).
Qed.

Lemma spill_exact c a b :
  let c' := materialize_range c a b in
  (forall p, c_mem c' p = match vs_slot (c_vs c) (p - c_start c) with
                          | Some (Virtual x) => if (a <=? p - c_start c) && (p - c_start c <? b) then x else c_mem c p
                          | _ => c_mem c p
                          end) /\
  (forall o, a <= o < b -> forall x, vs_slot (c_vs c') o <> Some (Virtual x)) /\
  (forall o, ~ (a <= o < b) -> vs_slot (c_vs c') o = vs_slot (c_vs c) o) /\
  (forall p, slot_value c' p = slot_value c p) /\
  (v_base (c_vs c'), v_top (c_vs c'), length (v_slots (c_vs c'))) = (v_base (c_vs c), v_top (c_vs c), length (v_slots (c_vs c))) /\
  (c_start c', c_slo c', c_lo c', c_len c', c_stored c') = (c_start c, c_slo c, c_lo c, c_len c, c_stored c).
Proof.
  destruct (materialize_ok c a b) as (M1 & M2 & M3 & M4 & M5 & M6 & M7 & M8 & MS & MM & MV). cbn zeta.
  split; [|split; [|split; [|split; [|split]]]].
  - intros p. rewrite MM. unfold slot_value. destruct (vs_slot _ _) as [[|x]|]; destruct (_ && _); reflexivity.
  - intros o O x. rewrite MS. destruct (Z.leb_spec a o), (Z.ltb_spec o b); try lia. cbn.
    destruct (vs_slot _ _); discriminate.
  - intros o O. rewrite MS. destruct (Z.leb_spec a o), (Z.ltb_spec o b); try lia; reflexivity.
  - exact MV.
  - unfold cap in M3. apply Nat2Z.inj in M3. congruence.
  - congruence.
Qed.
