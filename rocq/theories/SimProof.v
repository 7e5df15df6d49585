(** The block-local constants are also found by the global analysis, or nothing is (C17): a run of the abstract interpreter
    over part of a block from an arbitrary stack, against a run from unknown operands. *)
From Verif Require Import BlockModel FlowSpec CfgProof BlockProof LocalProof CommitProof BudgetSpec BudgetProof.
From Coq Require Import ZifyBool.
Open Scope Z_scope.

(** Every value of [L] is unknown or a constant, and then the same one or unknown or missing in [G]. *)
Definition sim (L G : list aval) : Prop := forall k x, nth_error L k = Some x ->
  x = ATop \/ exists v, x = AConst v /\ (nth_error G k = None \/ nth_error G k = Some (AConst v) \/ nth_error G k = Some ATop).
Lemma sim_tops n G : sim (repeat ATop n) G.
Proof. intros k x H. left. apply nth_error_In, repeat_spec in H. exact H. Qed.
Lemma sim_cons x y L G : (x = ATop \/ exists v, x = AConst v /\ (y = AConst v \/ y = ATop)) -> sim L G -> sim (x :: L) (y :: G).
Proof. intros H S [|k] z E; cbn in *; [|apply S, E]. injection E as <-. destruct H as [->|(v & -> & [->| ->])]; eauto 6. Qed.
Lemma sim_tail x y L G : sim (x :: L) (y :: G) -> sim L G.
Proof. intros S k. apply (S (Datatypes.S k)). Qed.
Lemma nth_skipn {A} n : forall (l : list A) k, nth_error (skipn n l) k = nth_error l (n + k).
Proof. induction n as [|n IH]; intros [|x l] k; cbn; try reflexivity; [destruct k; reflexivity|apply IH]. Qed.
Lemma nth_firstn_ {A} n : forall (l : list A) k, (k < n)%nat -> nth_error (firstn n l) k = nth_error l k.
Proof. induction n as [|n IH]; intros [|x l] [|k] H; cbn; try reflexivity; try lia. apply IH. lia. Qed.
Lemma nth_error_rev_ {A} (l : list A) k : (k < length l)%nat -> nth_error (rev l) k = nth_error l (length l - 1 - k).
Proof.
  revert k. induction l as [|x l IH]; intros k H; [cbn in H; lia|]. cbn [rev length] in *. destruct (Nat.eq_dec k (length l)) as [->|N].
  - rewrite nth_error_app2 by (rewrite rev_length; lia). rewrite rev_length, Nat.sub_diag. replace (S (length l) - 1 - length l)%nat with 0%nat by lia. reflexivity.
  - rewrite nth_error_app1 by (rewrite rev_length; lia). rewrite IH by lia. replace (S (length l) - 1 - k)%nat with (S (length l - 1 - k)) by lia. reflexivity.
Qed.
Lemma sim_skipn n : forall L G, sim L G -> sim (skipn n L) (skipn n G).
Proof. intros L G H k x. rewrite !nth_skipn. apply H. Qed.
Lemma sim_repeat n L G : sim L G -> sim (repeat ATop n ++ L) (repeat ATop n ++ G).
Proof. intros H. induction n as [|n IH]; [exact H|]. cbn. apply sim_cons; auto. Qed.
Lemma nth_aset k v l j : nth_error (aset_nth k v l) j = if (j =? k)%nat then match nth_error l j with Some _ => Some v | None => None end else nth_error l j.
Proof.
  revert k j. induction l as [|x l IH]; intros [|k] [|j]; cbn; try reflexivity; try (destruct (_ =? _)%nat; reflexivity). rewrite IH. reflexivity.
Qed.
Lemma nth_aswap a b l j : (a < length l)%nat -> (b < length l)%nat ->
  nth_error (aswap a b l) j = if (j =? a)%nat then nth_error l b else if (j =? b)%nat then nth_error l a else nth_error l j.
Proof.
  intros Ha Hb. unfold aswap. destruct (nth_some l a Ha) as [x Ex]. destruct (nth_some l b Hb) as [y Ey]. rewrite Ex, Ey, !nth_aset.
  destruct (Nat.eqb_spec j a).
  - subst. rewrite Ex. destruct (Nat.eqb_spec a b); reflexivity.
  - destruct (Nat.eqb_spec j b); [subst; rewrite Ey; reflexivity|reflexivity].
Qed.
Lemma aswap_out a b l : ~ ((a < length l)%nat /\ (b < length l)%nat) -> aswap a b l = l.
Proof.
  intros H. unfold aswap. destruct (nth_error l a) eqn:E1; [|reflexivity]. destruct (nth_error l b) eqn:E2; [|reflexivity].
  exfalso. apply H. split; eapply nth_lt; eauto.
Qed.
(** A value of [L] on its own. *)
Lemma sim_val L G k x : sim L G -> nth_error L k = Some x -> x = ATop \/ exists v, x = AConst v.
Proof. intros S H. destruct (S k x H) as [|(v & -> & _)]; eauto. Qed.
Lemma sim_aswap a b L G : sim L G -> (a < length L)%nat -> (b < length L)%nat -> (a < length G)%nat -> (b < length G)%nat -> sim (aswap a b L) (aswap a b G).
Proof. intros H La Lb Ga Gb j x. rewrite !nth_aswap by assumption. destruct (j =? a)%nat; [apply H|]. destruct (j =? b)%nat; apply H. Qed.
(** A swap that is out of reach of one of the two. *)
Definition hole n (l : list aval) : list aval := if (n <? length l)%nat then aset_nth n ATop l else l.
Lemma nth_hole n l j : nth_error (hole n l) j = if (j =? n)%nat then (if (n <? length l)%nat then Some ATop else None) else nth_error l j.
Proof.
  unfold hole. destruct (Nat.ltb_spec n (length l)) as [H|H].
  - rewrite nth_aset. destruct (Nat.eqb_spec j n); [|reflexivity]. subst. destruct (nth_some l n H) as [x ->]. reflexivity.
  - destruct (Nat.eqb_spec j n); [|reflexivity]. subst. apply nth_error_None. exact H.
Qed.
Lemma sim_hole n L G : sim L G -> sim (hole n L) (hole n G).
Proof.
  intros H j x. rewrite !nth_hole. destruct (j =? n)%nat; [|apply H]. destruct (n <? length L)%nat; [|discriminate]. intros E. injection E as <-. left. reflexivity.
Qed.
Lemma sim_hole_r n m L G : sim L G -> (n < length L)%nat -> (m < length L)%nat -> (length G <= m)%nat -> sim (aswap n m L) (hole n G).
Proof.
  intros H Ln Lm Gm j x. rewrite nth_aswap by assumption. rewrite nth_hole. destruct (Nat.eqb_spec j n).
  - intros E. destruct (sim_val _ _ _ _ H E) as [->|[v ->]]; [left; reflexivity|]. right. exists v. split; [reflexivity|]. destruct (n <? length G)%nat; auto.
  - destruct (Nat.eqb_spec j m); [|apply H]. intros E. destruct (sim_val _ _ _ _ H E) as [->|[v ->]]; [left; reflexivity|]. right. exists v. split; [reflexivity|].
    left. apply nth_error_None. lia.
Qed.
Lemma sim_hole_l n m L G : sim L G -> (length L <= m)%nat -> (n < length G)%nat -> (m < length G)%nat -> sim (hole n L) (aswap n m G).
Proof.
  intros H Lm Gn Gm j x. rewrite nth_hole, nth_aswap by assumption. destruct (Nat.eqb_spec j n).
  - destruct (n <? length L)%nat; [|discriminate]. intros E. injection E as <-. left. reflexivity.
  - intros E. assert (j < length L)%nat by (eapply nth_lt; eauto). destruct (Nat.eqb_spec j m); [lia|]. apply H, E.
Qed.
Lemma aset_hole l : aset_nth 0 ATop l = hole 0 l.
Proof. destruct l; reflexivity. Qed.

(** Evaluation needs constants, so two evaluations of the same instruction agree. *)
Lemma fold_consts op pc cl ins v : try_const_fold op pc cl ins = Some v -> op = 0x38 \/ op = 0x58 \/ Forall (fun x => x <> None) ins.
Proof.
  unfold try_const_fold, OP_CODESIZE, OP_PC'. destruct (op =? 0x38) eqn:E1; [left; lia|]. destruct (op =? 0x58) eqn:E2; [right; left; lia|].
  intros H. right. right. destruct (aop_of_code op) as [o|]; [|discriminate].
  destruct o, ins as [|[a|] [|[b|] [|[c|] [|e ins]]]]; try discriminate H; repeat constructor; discriminate.
Qed.
Lemma fold_agree op pc cl i1 i2 v w : try_const_fold op pc cl i1 = Some v -> try_const_fold op pc cl i2 = Some w -> length i1 = length i2 ->
  (forall k a b, nth_error i1 k = Some (Some a) -> nth_error i2 k = Some (Some b) -> a = b) -> v = w.
Proof.
  intros H1 H2 EL HA. destruct (fold_consts _ _ _ _ _ H1) as [O|[O|F1]]; [subst; cbn in *; congruence..|].
  destruct (fold_consts _ _ _ _ _ H2) as [O|[O|F2]]; [subst; cbn in *; congruence..|].
  assert (E : i1 = i2); [|congruence]. clear H1 H2. revert i2 EL HA F2. induction F1 as [|x i1 N F1 IH]; intros [|y i2] EL HA F2; try discriminate; [reflexivity|].
  inversion F2 as [|? ? N2 F2']; subst. f_equal.
  - destruct x as [a|]; [|congruence]. destruct y as [b|]; [|congruence]. f_equal. apply (HA 0%nat); reflexivity.
  - apply IH; [cbn in EL; congruence| |exact F2']. intros k a b. apply (HA (S k)).
Qed.
Lemma fold_inst_some env i d ins u v u' : fold_inst env i d ins u = (Some v, u') -> exists c, v = AConst c /\ evaluable (d_op d) /\ 0 < snd (d_io d) /\
  try_const_fold (d_op d) (a_const env i) (a_codelen env) (avals_const ins) = Some c.
Proof.
  unfold fold_inst. destruct (0 <? snd (d_io d)) eqn:E0; [|discriminate]. destruct (u <? a_gas_limit env); [|discriminate]. cbn [andb].
  destruct (const_fold_gas _ _) as [c|]; [|discriminate]. destruct (_ <=? _); [|discriminate].
  destruct (try_const_fold _ _ _ _) as [r|] eqn:E; [|discriminate]. intros H. injection H as <- _. exists r. split; [reflexivity|].
  split; [eapply fold_evaluable; eauto|]. split; [lia|first [exact E|reflexivity]].
Qed.
Lemma fold_inst_ops env i d d' ins u : d_op d' = d_op d -> d_io d' = d_io d -> fold_inst env i d' ins u = fold_inst env i d ins u.
Proof. intros E1 E2. unfold fold_inst. rewrite E1, E2. reflexivity. Qed.
Lemma interp_inst_ops env i d d' A u : d_op d' = d_op d -> d_io d' = d_io d -> interp_inst env i d' A u = interp_inst env i d A u.
Proof. intros E1 E2. unfold interp_inst. rewrite E1, E2, (fold_inst_ops env i d d') by assumption. reflexivity. Qed.

Lemma sim_inst env i d L G uL uG L' uL' G' uG' : (evaluable (d_op d) -> snd (d_io d) <= 1) -> (d_op d = 0xe8 -> 0 <= a_const env i < 256) ->
  sim L G -> interp_inst env i d L uL = (Some L', uL') -> interp_inst env i d G uG = (Some G', uG') -> sim L' G'.
Proof.
  intros ONE BYTE S HL HG. unfold interp_inst in HL, HG.
  destruct ((OP_PUSH0 <=? d_op d) && (d_op d <=? OP_PUSH32)).
  { assert (E1 : L' = AConst (a_const env i) :: L) by congruence. assert (E2 : G' = AConst (a_const env i) :: G) by congruence. subst. apply sim_cons; [right; eauto|exact S]. }
  destruct (d_op d =? OP_POP).
  { destruct L as [|x L]; [discriminate|]. destruct G as [|y G]; [discriminate|]. assert (E1 : L' = L) by congruence. assert (E2 : G' = G) by congruence. subst. eapply sim_tail, S. }
  destruct ((0x80 <=? d_op d) && (d_op d <=? 0x8f)).
  { destruct (nth_error L _) as [x|] eqn:EL; [|discriminate]. destruct (nth_error G _) as [y|] eqn:EG; [|discriminate].
    assert (E1 : L' = x :: L) by congruence. assert (E2 : G' = y :: G) by congruence. subst. apply sim_cons; [|exact S].
    destruct (S _ _ EL) as [|(v & -> & [X|[X|X]])]; [auto|congruence|right; exists v; rewrite EG in X; injection X as <-; auto..]. }
  destruct ((0x90 <=? d_op d) && (d_op d <=? 0x9f)).
  { cbv zeta in *. set (k := Z.to_nat (d_op d - 0x90 + 1)) in *. destruct (Nat.ltb_spec (length L) (k + 1)); [discriminate|]. destruct (Nat.ltb_spec (length G) (k + 1)); [discriminate|].
    assert (E1 : L' = aswap 0 k L) by congruence. assert (E2 : G' = aswap 0 k G) by congruence. subst L' G'. apply sim_aswap; [exact S|lia..]. }
  destruct (d_op d =? OP_DUPN).
  { destruct (decode_single _) as [n|]; [|discriminate]. cbv zeta in *. set (k := Z.to_nat n) in *.
    destruct (Nat.ltb_spec (length L) k) as [L1|L1].
    - assert (E1 : L' = ATop :: L) by congruence. subst L'. destruct (Nat.ltb_spec (length G) k) as [G1|G1].
      + assert (E2 : G' = ATop :: G) by congruence. subst G'. apply sim_cons; auto.
      + destruct (nth_error G (k - 1)) as [y|]; [|discriminate]. assert (E2 : G' = y :: G) by congruence. subst G'. apply sim_cons; auto.
    - destruct (nth_error L (k - 1)) as [x|] eqn:EL; [|discriminate]. assert (E1 : L' = x :: L) by congruence. subst L'. destruct (Nat.ltb_spec (length G) k) as [G1|G1].
      + assert (E2 : G' = ATop :: G) by congruence. subst G'. apply sim_cons; [|exact S]. destruct (sim_val _ _ _ _ S EL) as [|[v ->]]; eauto.
      + destruct (nth_error G (k - 1)) as [y|] eqn:EG; [|discriminate]. assert (E2 : G' = y :: G) by congruence. subst G'. apply sim_cons; [|exact S].
        destruct (S _ _ EL) as [|(v & -> & [X|[X|X]])]; [auto|congruence|right; exists v; rewrite EG in X; injection X as <-; auto..]. }
  destruct (d_op d =? OP_SWAPN).
  { destruct (decode_single _) as [n|]; [|discriminate]. cbv zeta in *. set (k := Z.to_nat n) in *.
    destruct (Nat.ltb_spec (length L) (k + 1)) as [L1|L1]; destruct (Nat.ltb_spec (length G) (k + 1)) as [G1|G1].
    - assert (E1 : L' = hole 0 L) by (rewrite <- aset_hole; congruence). assert (E2 : G' = hole 0 G) by (rewrite <- aset_hole; congruence). subst L' G'. apply sim_hole, S.
    - assert (E1 : L' = hole 0 L) by (rewrite <- aset_hole; congruence). assert (E2 : G' = aswap 0 k G) by congruence. subst L' G'. apply sim_hole_l; [exact S|lia..].
    - assert (E1 : L' = aswap 0 k L) by congruence. assert (E2 : G' = hole 0 G) by (rewrite <- aset_hole; congruence). subst L' G'. apply sim_hole_r; [exact S|lia..].
    - assert (E1 : L' = aswap 0 k L) by congruence. assert (E2 : G' = aswap 0 k G) by congruence. subst L' G'. apply sim_aswap; [exact S|lia..]. }
  destruct (Z.eqb_spec (d_op d) OP_EXCHANGE) as [OX|_].
  { destruct (decode_pair_eip (a_const env i) (BYTE OX)) as [(n & m & D & _ & LT)|[D _]]; rewrite D in HL, HG; [|discriminate]. cbv zeta in *. rewrite !Nat2Z.id in *. change (if (n <? length L)%nat then aset_nth n ATop L else L) with (hole n L) in HL. change (if (n <? length G)%nat then aset_nth n ATop G else G) with (hole n G) in HG.
    destruct (Nat.ltb_spec (length L) (m + 1)) as [L1|L1]; destruct (Nat.ltb_spec (length G) (m + 1)) as [G1|G1].
    - assert (E1 : L' = hole n L) by congruence. assert (E2 : G' = hole n G) by congruence. subst L' G'. apply sim_hole, S.
    - assert (E1 : L' = hole n L) by congruence. assert (E2 : G' = aswap n m G) by congruence. subst L' G'. apply sim_hole_l; [exact S|lia..].
    - assert (E1 : L' = aswap n m L) by congruence. assert (E2 : G' = hole n G) by congruence. subst L' G'. apply sim_hole_r; [exact S|lia..].
    - assert (E1 : L' = aswap n m L) by congruence. assert (E2 : G' = aswap n m G) by congruence. subst L' G'. apply sim_aswap; [exact S|lia..]. }
  set (inp := Z.to_nat (fst (d_io d))) in *. destruct (Nat.ltb_spec (length L) inp) as [L1|L1]; [discriminate|]. destruct (Nat.ltb_spec (length G) inp) as [G1|G1]; [discriminate|].
  destruct (fold_inst env i d (rev (firstn inp L)) uL) as [fl ul] eqn:FL. destruct (fold_inst env i d (rev (firstn inp G)) uG) as [fg ug] eqn:FG.
  assert (E1 : L' = match fl with Some v => v :: skipn inp L | None => repeat ATop (Z.to_nat (snd (d_io d))) ++ skipn inp L end) by congruence.
  assert (E2 : G' = match fg with Some v => v :: skipn inp G | None => repeat ATop (Z.to_nat (snd (d_io d))) ++ skipn inp G end) by congruence.
  clear HL HG. pose proof (sim_skipn inp _ _ S) as SK.
  assert (OUT : forall f u u' ins, fold_inst env i d ins u = (Some f, u') -> Z.to_nat (snd (d_io d)) = 1%nat).
  { intros f u u' ins F. destruct (fold_inst_some _ _ _ _ _ _ _ F) as (c & _ & EV & P & _). specialize (ONE EV). lia. }
  destruct fl as [x|], fg as [y|]; subst L' G'.
  - destruct (fold_inst_some _ _ _ _ _ _ _ FL) as (v & -> & _ & _ & TL). destruct (fold_inst_some _ _ _ _ _ _ _ FG) as (w & -> & _ & _ & TG).
    assert (v = w); [|subst; apply sim_cons; [right; eauto|exact SK]].
    eapply (fold_agree _ _ _ _ _ _ _ TL TG).
    + unfold avals_const. rewrite !map_length, !rev_length, !firstn_length. lia.
    + unfold avals_const. intros k a b HA HB.
      assert (RN : forall l : list aval, (inp <= length l)%nat -> forall c, nth_error (rev (map as_const (firstn inp l))) k = Some (Some c) -> (k < inp)%nat /\ nth_error l (inp - 1 - k) = Some (AConst c)).
      { intros l LE c Hc. assert (K : (k < inp)%nat). { apply nth_lt in Hc. rewrite rev_length, map_length, firstn_length in Hc. lia. }
        split; [exact K|]. rewrite nth_error_rev_ in Hc by (rewrite map_length, firstn_length; lia). rewrite map_length, firstn_length in Hc.
        replace (Nat.min inp (length l) - 1 - k)%nat with (inp - 1 - k)%nat in Hc by lia. rewrite nth_error_map in Hc.
        destruct (nth_error (firstn inp l) (inp - 1 - k)) as [z|] eqn:Ez; [|discriminate]. cbn in Hc. destruct z; cbn in Hc; try discriminate. 
        rewrite nth_firstn_ in Ez by lia. congruence. }
      rewrite map_rev in HA, HB. destruct (RN L L1 a HA) as [K1 X1]. destruct (RN G G1 b HB) as [_ X2].
      destruct (S _ _ X1) as [X|(v' & X & [Y|[Y|Y]])]; congruence.
  - rewrite (OUT _ _ _ _ FL). cbn. destruct (fold_inst_some _ _ _ _ _ _ _ FL) as (v & -> & _). apply sim_cons; [right; eauto|exact SK].
  - rewrite (OUT _ _ _ _ FG). cbn. apply sim_cons; [auto|exact SK].
  - apply sim_repeat, SK.
Qed.

(** ** Runs over several instructions. *)
Lemma sim_run env I1 I3 : forall idx L G uL uG L' uL' G' uG',
  (forall k, In k idx -> exists d1 d3, nth_error I1 k = Some d1 /\ nth_error I3 k = Some d3 /\ is_dead d1 = false /\ is_dead d3 = false /\
     d_op d3 = d_op d1 /\ d_io d3 = d_io d1 /\ (evaluable (d_op d1) -> snd (d_io d1) <= 1) /\ (d_op d1 = 0xe8 -> 0 <= a_const env k < 256)) ->
  sim L G -> astack env I1 idx L uL = Some (L', uL') -> astack env I3 idx G uG = Some (G', uG') -> sim L' G'.
Proof.
  induction idx as [|k idx IH]; intros L G uL uG L' uL' G' uG' H S EL EG; cbn [astack] in EL, EG.
  - injection EL as <- _. injection EG as <- _. exact S.
  - destruct (H k (or_introl eq_refl)) as (d1 & d3 & H1 & H3 & D1 & D3 & O & IO & ONE & BY). rewrite H1, D1 in EL. rewrite H3, D3 in EG.
    rewrite (interp_inst_ops env k d1 d3) in EG by assumption.
    destruct (interp_inst env k d1 L uL) as [[L1|] u1] eqn:I1'; [|discriminate]. destruct (interp_inst env k d1 G uG) as [[G1|] u2] eqn:I2'; [|discriminate].
    eapply (IH L1 G1 u1 u2); [intros j Hj; apply H; right; exact Hj| |exact EL|exact EG]. eapply sim_inst; eauto.
Qed.
(** A run that stops before [i] does not record it. *)
Lemma interp_block_stop env insts i l2 : forall l1 A sn u ok stk sn' u', ~ In i l1 -> ~ In i l2 -> astack env insts l1 A u = None ->
  interp_block env insts (l1 ++ i :: l2) A sn u = (ok, stk, sn', u') -> sn_in sn' i = sn_in sn i.
Proof.
  induction l1 as [|k l1 IH]; intros A sn u ok stk sn' u' N1 N2 EA E; cbn [astack app interp_block] in *; [discriminate|].
  assert (Nk : i <> k) by (intros ->; apply N1; left; reflexivity). assert (N1' : ~ In i l1) by (intros X; apply N1; right; exact X).
  destruct (nth_error insts k) as [d|]; [|injection E as _ _ <- _; reflexivity]. destruct (is_dead d); [eapply IH; eauto|].
  set (sn1 := if (0 <? _)%nat then _ else _) in *.
  assert (U1 : sn_in sn1 i = sn_in sn i) by (subst sn1; destruct (0 <? _)%nat; [cbn; rewrite upd_other by exact Nk|]; reflexivity).
  destruct (interp_inst env k d A u) as [[A'|] u1]; [|injection E as _ _ <- _; exact U1].
  rewrite (IH _ _ _ _ _ _ _ N1' N2 EA E). destruct (_ && _); exact U1.
Qed.
Definition oklast (v : Z) (l : list aval) : Prop := last (map Some l) None = None \/ last (map Some l) None = Some (AConst v) \/ last (map Some l) None = Some ATop.
Lemma last_snap n (A : list aval) : last (map Some (rev (firstn (S n) A))) None = hd_error A.
Proof. rewrite CommitProof.last_rev, rev_involutive. destruct A; reflexivity. Qed.
Lemma mono_block env I1 I3 s3 n s1 i v m u1 L uL d3 A sn u ok stk sn' u' :
  interp_block env I3 (seq s3 n) A sn u = (ok, stk, sn', u') -> (s3 <= s1 <= i)%nat -> (i < s3 + n)%nat ->
  nth_error I3 i = Some d3 -> is_dead d3 = false -> (0 < Z.to_nat (fst (d_io d3)))%nat ->
  (forall k, (s1 <= k < i)%nat -> exists d1 d3, nth_error I1 k = Some d1 /\ nth_error I3 k = Some d3 /\ is_dead d1 = false /\ is_dead d3 = false /\
     d_op d3 = d_op d1 /\ d_io d3 = d_io d1 /\ (evaluable (d_op d1) -> snd (d_io d1) <= 1) /\ (d_op d1 = 0xe8 -> 0 <= a_const env k < 256)) ->
  astack env I1 (seq s1 (i - s1)) (repeat ATop m) u1 = Some (L, uL) -> hd_error L = Some (AConst v) ->
  oklast v (sn_in sn i) -> oklast v (sn_in sn' i).
Proof.
  intros E [LE1 LE2] LT H3 D3 IN K EL HL OK.
  assert (SP : seq s3 n = seq s3 (i - s3) ++ i :: seq (S i) (s3 + n - S i)).
  { replace n with ((i - s3) + (S (s3 + n - S i)))%nat at 1 by lia. rewrite seq_app. f_equal. replace (s3 + (i - s3))%nat with i by lia. reflexivity. }
  assert (SP2 : seq s3 (i - s3) = seq s3 (s1 - s3) ++ seq s1 (i - s1)).
  { replace (i - s3)%nat with ((s1 - s3) + (i - s1))%nat by lia. rewrite seq_app. f_equal. replace (s3 + (s1 - s3))%nat with s1 by lia. reflexivity. }
  destruct (astack env I3 (seq s3 (i - s3)) A u) as [[G uG]|] eqn:EG.
  - pose proof (interp_block_run env I3 _ _ _ _ _ _ _ _ (seq_NoDup _ _) E) as (_ & _ & _ & R).
    destruct (R _ _ _ _ _ _ SP H3 D3 EG) as [R1 _]. rewrite (R1 IN). destruct (Z.to_nat (fst (d_io d3))) as [|inp]; [lia|].
    unfold oklast. rewrite !last_snap. rewrite SP2, astack_app in EG. destruct (astack env I3 (seq s3 (s1 - s3)) A u) as [[G0 u0]|]; [|discriminate].
    assert (S : sim L G). { eapply (sim_run env I1 I3); [|apply sim_tops|exact EL|exact EG]. intros k Hk. apply in_seq in Hk. apply K. lia. }
    assert (N0 : nth_error L 0 = Some (AConst v)) by (destruct L; exact HL). destruct (S 0%nat _ N0) as [X|(w & X & Y)]; [discriminate|]. injection X as <-.
    assert (HG : nth_error G 0 = hd_error G) by (destruct G; reflexivity). rewrite HG in Y. exact Y.
  - rewrite SP in E. assert (N1 : ~ In i (seq s3 (i - s3))) by (rewrite in_seq; lia). assert (N2 : ~ In i (seq (S i) (s3 + n - S i))) by (rewrite in_seq; lia).
    rewrite (interp_block_stop _ _ _ _ _ _ _ _ _ _ _ _ N1 N2 EG E). exact OK.
Qed.
