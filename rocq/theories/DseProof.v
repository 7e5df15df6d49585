(** Proofs about dead store elimination. *)
From Verif Require Import DseSpec VStackProof FlowSpec CfgProof BlockProof.
From Coq Require Import ZifyBool.
Import ListNotations.
Open Scope Z_scope.

(** ** Bit vector *)
(** Keep only the linear hypotheses before calling [lia]. *)
Ltac zonly := repeat match goal with H : ?P |- _ => match type of P with Prop => lazymatch P with
  | @eq nat _ _ => fail | @eq Z _ _ => fail | Z.le _ _ => fail | Z.lt _ _ => fail | le _ _ => fail | lt _ _ => fail
  | Z.le _ _ /\ _ => fail | Z.lt _ _ /\ _ => fail | le _ _ /\ _ => fail | lt _ _ /\ _ => fail | _ => clear H end end end.

Lemma lget_some lv q b : lget lv q = Some b -> 0 <= q < Z.of_nat (length lv).
Proof.
  unfold lget. destruct (Z.ltb_spec q 0); [discriminate|]. intros E.
  assert (nth_error lv (Z.to_nat q) <> None) as N by congruence. apply nth_error_Some in N. lia.
Qed.
Lemma lget_in lv q : 0 <= q < Z.of_nat (length lv) -> exists b, lget lv q = Some b.
Proof.
  intros H. unfold lget. destruct (Z.ltb_spec q 0); [lia|].
  destruct (nth_error lv (Z.to_nat q)) eqn:E; eauto. apply nth_error_None in E. lia.
Qed.
Lemma lset_spec lv q b lv' : lset lv q b = Some lv' ->
  length lv' = length lv /\ 0 <= q < Z.of_nat (length lv) /\
  forall r, lget lv' r = if r =? q then Some b else lget lv r.
Proof.
  unfold lset. destruct (lget lv q) eqn:E; [|discriminate]. intros H. injection H as <-.
  pose proof (lget_some _ _ _ E) as B. rewrite upd_nth_length. split; [reflexivity|]. split; [lia|]. intros r. unfold lget.
  destruct (Z.ltb_spec r 0).
  - destruct (Z.eqb_spec r q); [lia|reflexivity].
  - rewrite nth_upd_nth. destruct (Z.eqb_spec r q) as [->|N].
    + rewrite Nat.eqb_refl. destruct (nth_error lv (Z.to_nat q)) eqn:E2; [reflexivity|]. apply nth_error_None in E2. lia.
    + destruct (Nat.eqb_spec (Z.to_nat r) (Z.to_nat q)); [lia|]. reflexivity.
Qed.
Lemma lset_in lv q b : 0 <= q < Z.of_nat (length lv) -> exists lv', lset lv q b = Some lv' /\ length lv' = length lv.
Proof.
  intros H. destruct (lget_in lv q H) as [x E]. unfold lset. rewrite E. eexists. split; [reflexivity|]. apply upd_nth_length.
Qed.

Lemma kill_spec n : forall lv pos lv', kill_outputs lv pos n = Some lv' ->
  length lv' = length lv /\
  forall r, lget lv' r = if (pos <=? r) && (r <? pos + Z.of_nat n) then Some false else lget lv r.
Proof.
  induction n as [|n IH]; intros lv pos lv' E; cbn [kill_outputs] in E.
  { injection E as <-. split; [reflexivity|]. intros r. destruct ((pos <=? r) && (r <? pos + Z.of_nat 0)) eqn:X; [lia|reflexivity]. }
  destruct (lset lv pos false) as [l1|] eqn:E1; [|discriminate].
  destruct (lset_spec _ _ _ _ E1) as (L1 & B & G1). destruct (IH _ _ _ E) as (L2 & G2). split; [congruence|].
  intros r. rewrite G2, G1. destruct (Z.eqb_spec r pos);
    destruct ((pos + 1 <=? r) && (r <? pos + 1 + Z.of_nat n)) eqn:X1;
    destruct ((pos <=? r) && (r <? pos + Z.of_nat (S n))) eqn:X2; try reflexivity; try lia.
Qed.
Lemma kill_in n : forall lv pos, 0 <= pos -> pos + Z.of_nat n <= Z.of_nat (length lv) ->
  exists lv', kill_outputs lv pos n = Some lv' /\ length lv' = length lv.
Proof.
  induction n as [|n IH]; intros lv pos H1 H2; cbn [kill_outputs]; [eauto|].
  destruct (lset_in lv pos false) as (l1 & -> & L1); [lia|].
  destruct (IH l1 (pos + 1)) as (l2 & -> & L2); [lia|lia|]. exists l2. split; [reflexivity|congruence].
Qed.
Definition const_at (snap : list aval) (k : nat) : bool :=
  match nth_error snap k with Some a => is_const a | None => false end.
Lemma const_at_tl snap k : const_at (tl snap) k = const_at snap (S k).
Proof. destruct snap; [|reflexivity]. unfold const_at. destruct k; reflexivity. Qed.
Lemma mark_spec n : forall lv pos snap lv', mark_inputs lv pos snap n = Some lv' ->
  length lv' = length lv /\
  forall r, lget lv' r = if (pos <=? r) && (r <? pos + Z.of_nat n) && negb (const_at snap (Z.to_nat (r - pos)))
                         then Some true else lget lv r.
Proof.
  induction n as [|n IH]; intros lv pos snap lv' E; cbn [mark_inputs] in E.
  { injection E as <-. split; [reflexivity|]. intros r. destruct ((pos <=? r) && (r <? pos + Z.of_nat 0)) eqn:X; [lia|reflexivity]. }
  assert (X : exists l1, mark_inputs l1 (pos + 1) (tl snap) n = Some lv' /\ length l1 = length lv /\
    forall r, lget l1 r = if (r =? pos) && negb (const_at snap 0) then Some true else lget lv r).
  { unfold const_at. destruct snap as [|a snap]; cbn [nth_error] in *.
    - destruct (lset lv pos true) as [l1|] eqn:E1; [|discriminate]. destruct (lset_spec _ _ _ _ E1) as (L1 & B & G1).
      exists l1. split; [exact E|]. split; [exact L1|]. intros r. rewrite G1. now rewrite andb_true_r.
    - destruct (is_const a).
      + exists lv. split; [exact E|]. split; [reflexivity|]. intros r. now rewrite andb_false_r.
      + destruct (lset lv pos true) as [l1|] eqn:E1; [|discriminate]. destruct (lset_spec _ _ _ _ E1) as (L1 & B & G1).
        exists l1. split; [exact E|]. split; [exact L1|]. intros r. rewrite G1. now rewrite andb_true_r. }
  destruct X as (l1 & X & L1 & G1). destruct (IH _ _ _ _ X) as (L2 & G2). split; [congruence|].
  intros r. rewrite G2, G1, const_at_tl. destruct (Z.eqb_spec r pos) as [->|N].
  - rewrite Z.sub_diag. change (Z.to_nat 0) with 0%nat.
    destruct ((pos + 1 <=? pos) && (pos <? pos + 1 + Z.of_nat n)) eqn:Y; [lia|]. cbn [andb].
    destruct ((pos <=? pos) && (pos <? pos + Z.of_nat (S n))) eqn:Y2; [|lia]. reflexivity.
  - cbn [andb]. destruct ((pos + 1 <=? r) && (r <? pos + 1 + Z.of_nat n)) eqn:Y.
    + replace (S (Z.to_nat (r - (pos + 1)))) with (Z.to_nat (r - pos)) by lia.
      replace ((pos <=? r) && (r <? pos + Z.of_nat (S n))) with true by lia. reflexivity.
    + replace ((pos <=? r) && (r <? pos + Z.of_nat (S n))) with false by lia. reflexivity.
Qed.
Lemma mark_in n : forall lv pos snap, 0 <= pos -> pos + Z.of_nat n <= Z.of_nat (length lv) ->
  exists lv', mark_inputs lv pos snap n = Some lv' /\ length lv' = length lv.
Proof.
  induction n as [|n IH]; intros lv pos snap H1 H2; cbn [mark_inputs]; [eauto|].
  destruct (lset_in lv pos true) as (l1 & E1 & L1); [lia|]. rewrite E1.
  assert (X : exists l, match snap with a :: _ => if is_const a then Some lv else Some l1 | [] => Some l1 end = Some l /\ length l = length lv).
  { destruct snap as [|a ?]; [eauto|]. destruct (is_const a); eauto. }
  destruct X as (l & -> & L). destruct (IH l (pos + 1) (tl snap)) as (l2 & -> & L2); [lia|lia|]. exists l2. split; [reflexivity|congruence].
Qed.
Lemma nth_error_repeat' {A} (x : A) n k : (k < n)%nat -> nth_error (repeat x n) k = Some x.
Proof. revert k. induction n; intros [|k] H; cbn; try lia; auto. apply IHn. lia. Qed.
Lemma fill_spec lv n lv' : fill_prefix lv n = Some lv' ->
  length lv' = length lv /\ forall r, lget lv' r = if (0 <=? r) && (r <? n) then Some true else lget lv r.
Proof.
  unfold fill_prefix. destruct ((n <? 0) || (Z.of_nat (length lv) <? n)) eqn:X; [discriminate|]. intros E. injection E as <-.
  split; [rewrite app_length, repeat_length, skipn_length; lia|]. intros r. unfold lget.
  destruct (Z.ltb_spec r 0); [destruct ((0 <=? r) && (r <? n)) eqn:?; [lia|reflexivity]|].
  destruct ((0 <=? r) && (r <? n)) eqn:Y.
  - rewrite nth_error_app1 by (rewrite repeat_length; lia). apply nth_error_repeat'. lia.
  - rewrite nth_error_app2 by (rewrite repeat_length; lia). rewrite repeat_length.
    rewrite <- (firstn_skipn (Z.to_nat n) lv) at 2. rewrite nth_error_app2 by (rewrite firstn_length; lia).
    f_equal. rewrite firstn_length. lia.
Qed.
Lemma fill_in lv n : 0 <= n <= Z.of_nat (length lv) -> exists lv', fill_prefix lv n = Some lv' /\ length lv' = length lv.
Proof.
  intros H. destruct (fill_prefix lv n) as [l|] eqn:E; [exists l; split; [reflexivity|eapply fill_spec; eauto]|].
  unfold fill_prefix in E. destruct ((n <? 0) || (Z.of_nat (length lv) <? n)) eqn:X; [lia|discriminate].
Qed.

Lemma swap_spec lv a b lv' : swap_live lv a b = Some lv' ->
  length lv' = length lv /\ exists x y, lget lv a = Some x /\ lget lv b = Some y /\
  forall r, lget lv' r = if r =? b then Some x else if r =? a then Some y else lget lv r.
Proof.
  unfold swap_live. destruct (lget lv a) as [x|] eqn:Ea; [|discriminate]. destruct (lget lv b) as [y|] eqn:Eb; [|discriminate].
  destruct (lset lv a y) as [l1|] eqn:E1; [|discriminate]. intros E.
  destruct (lset_spec _ _ _ _ E1) as (L1 & _ & G1). destruct (lset_spec _ _ _ _ E) as (L2 & _ & G2).
  split; [congruence|]. exists x, y. split; [reflexivity|]. split; [reflexivity|]. intros r. rewrite G2, G1. reflexivity.
Qed.
Lemma swap_in lv a b : 0 <= a < Z.of_nat (length lv) -> 0 <= b < Z.of_nat (length lv) ->
  exists lv', swap_live lv a b = Some lv' /\ length lv' = length lv.
Proof.
  intros Ha Hb. unfold swap_live. destruct (lget_in _ _ Ha) as [x ->], (lget_in _ _ Hb) as [y ->].
  destruct (lset_in lv a y Ha) as (l1 & -> & L1). destruct (lset_in l1 b x) as (l2 & -> & L2); [lia|]. exists l2. split; [reflexivity|congruence].
Qed.
Lemma dup_spec lv h n lv' : 1 <= n -> dup_live lv h n = Some lv' ->
  length lv' = length lv /\ exists t, lget lv h = Some t /\
  forall r, lget lv' r = if (r =? h - n) && t then Some true else if r =? h then Some false else lget lv r.
Proof.
  intros N. unfold dup_live. destruct (lget lv h) as [t|] eqn:Eh; [|discriminate].
  destruct (lset lv h false) as [l1|] eqn:E1; [|discriminate]. destruct (lset_spec _ _ _ _ E1) as (L1 & _ & G1). intros E.
  destruct t.
  - destruct (lset_spec _ _ _ _ E) as (L2 & _ & G2). split; [congruence|]. exists true. split; [reflexivity|].
    intros r. rewrite G2, G1, andb_true_r. reflexivity.
  - injection E as <-. split; [exact L1|]. exists false. split; [reflexivity|]. intros r. rewrite andb_false_r. apply G1.
Qed.
Lemma dup_in lv h n : 0 <= h < Z.of_nat (length lv) -> 0 <= h - n < Z.of_nat (length lv) ->
  exists lv', dup_live lv h n = Some lv' /\ length lv' = length lv.
Proof.
  intros H1 H2. unfold dup_live. destruct (lget_in _ _ H1) as [t ->]. destruct (lset_in lv h false H1) as (l1 & -> & L1).
  destruct t; [|eauto]. destruct (lset_in l1 (h - n) true) as (l2 & -> & L2); [lia|]. exists l2. split; [reflexivity|congruence].
Qed.
Lemma both_spec lv a b : both_dead lv a b = Some true -> lget lv a = Some false /\ lget lv b = Some false.
Proof.
  unfold both_dead. destruct (lget lv a) as [[]|]; try discriminate. destruct (lget lv b) as [[]|]; try discriminate. auto.
Qed.
Lemma both_in lv a b : 0 <= a < Z.of_nat (length lv) -> 0 <= b < Z.of_nat (length lv) -> both_dead lv a b <> None.
Proof.
  intros Ha Hb. unfold both_dead. destruct (lget_in _ _ Ha) as [x ->], (lget_in _ _ Hb) as [y ->]. destruct x; discriminate.
Qed.
Lemma outputs_spec lv base n : outputs_dead lv base n = true ->
  forall r, base <= r < base + Z.of_nat n -> lget lv r = Some false.
Proof.
  unfold outputs_dead. rewrite forallb_forall. intros H r R.
  specialize (H (Z.to_nat (r - base))). rewrite in_seq in H. unfold dead_at in H.
  replace (base + Z.of_nat (Z.to_nat (r - base))) with r in H by lia.
  destruct (lget lv r) as [[]|]; try (discriminate H; lia); auto; specialize (H ltac:(lia)); discriminate.
Qed.

(** ** The pass by shape *)
Definition arity_shape (t : ditem) : Prop :=
  match shape_of (d_op (it_d t)) (it_imm t) with
  | ShDup n => d_io (it_d t) = (Z.of_nat n, Z.of_nat n + 1)
  | ShSwap _ b => d_io (it_d t) = (Z.of_nat b + 1, Z.of_nat b + 1)
  | ShPop => d_io (it_d t) = (1, 0)
  | _ => True
  end.
Lemma shape_wf op imm : (0xe6 <= op <= 0xe8 -> 0 <= imm < 256) ->
  match shape_of op imm with ShDup n => (1 <= n)%nat | ShSwap a b => (a < b)%nat | _ => True end.
Proof.
  intros I. unfold shape_of.
  destruct ((0x80 <=? op) && (op <=? 0x8f)) eqn:E1; [lia|]. destruct ((0x90 <=? op) && (op <=? 0x9f)) eqn:E2; [lia|].
  destruct (Z.eqb_spec op 0xe6); [specialize (I ltac:(lia)); clear -I; destruct (decode_single_eip imm I) as [(n & _ & -> & ?)|(_ & ->)]; auto|].
  destruct (Z.eqb_spec op 0xe7); [specialize (I ltac:(lia)); clear -I; destruct (decode_single_eip imm I) as [(n & _ & -> & ?)|(_ & ->)]; auto|].
  destruct (Z.eqb_spec op 0xe8); [specialize (I ltac:(lia)); clear -I; destruct (decode_pair_eip imm I) as [(n & m & _ & -> & ?)|(_ & ->)]; auto|].
  destruct (_ || _); [exact Logic.I|]. destruct (op =? 0x50); exact Logic.I.
Qed.
Lemma transfer_shape lv op imm h inp out snap output : (0xe6 <= op <= 0xe8 -> 0 <= imm < 256) ->
  match shape_of op imm with ShDup n => Z.of_nat n <= h | ShSwap a b => Z.of_nat b < h | _ => True end ->
  transfer_liveness lv op h inp out (decode_imm op imm) snap output =
  match shape_of op imm with
  | ShDup n => dup_live lv h (Z.of_nat n)
  | ShSwap a b => swap_live lv (h - 1 - Z.of_nat a) (h - 1 - Z.of_nat b)
  | ShBad => Some lv
  | ShPop => lset lv (h - 1) false
  | _ => generic_transfer lv h inp out snap output
  end.
Proof.
  intros I. unfold shape_of, transfer_liveness, decode_imm, is_swap16, is_dup16, below.
  change OP_DUPN with 0xe6. change OP_SWAPN with 0xe7. change OP_EXCHANGE with 0xe8. change OP_POP with 0x50.
  destruct ((0x80 <=? op) && (op <=? 0x8f)) eqn:E1.
  { intros B. replace ((0x90 <=? op) && (op <=? 0x9f)) with false by lia. replace (op =? 0xe7) with false by lia. f_equal. lia. }
  destruct ((0x90 <=? op) && (op <=? 0x9f)) eqn:E2.
  { intros B. f_equal; lia. }
  destruct (Z.eqb_spec op 0xe6) as [->|N6].
  { specialize (I ltac:(lia)). cbn [Z.eqb orb Pos.eqb]. destruct (decode_single_eip imm I) as [(n & -> & -> & ?)|(-> & ->)]; [|reflexivity].
    intros B. replace ((1 <=? Z.of_nat n) && ((h <? 0) || (Z.of_nat n <=? h))) with true by lia. reflexivity. }
  destruct (Z.eqb_spec op 0xe7) as [->|N7].
  { specialize (I ltac:(lia)). cbn [Z.eqb orb Pos.eqb]. destruct (decode_single_eip imm I) as [(n & -> & -> & ?)|(-> & ->)]; [|reflexivity].
    intros B. replace ((h <? 0) || (Z.of_nat n <? h)) with true by lia. f_equal. lia. }
  destruct (Z.eqb_spec op 0xe8) as [->|N8].
  { specialize (I ltac:(lia)). cbn [Z.eqb orb Pos.eqb]. destruct (decode_pair_eip imm I) as [(n & m & -> & -> & ?)|(-> & ->)]; [|reflexivity].
    intros B. replace ((h <? 0) || (Z.of_nat m <? h)) with true by lia. reflexivity. }
  destruct (_ || _) eqn:E3; [replace (op =? 0x50) with false by lia; reflexivity|].
  destruct (op =? 0x50); reflexivity.
Qed.
Lemma dead_shape lv op imm h inp out : (0xe6 <= op <= 0xe8 -> 0 <= imm < 256) ->
  match shape_of op imm with ShSwap a b => Z.of_nat b < h | _ => True end ->
  all_outputs_dead lv op h inp out (decode_imm op imm) =
  match shape_of op imm with
  | ShDup n => option_map negb (lget lv h)
  | ShSwap a b => both_dead lv (h - 1 - Z.of_nat a) (h - 1 - Z.of_nat b)
  | ShBad => Some false
  | _ => if (0 <? out)%nat then Some (outputs_dead lv (h - Z.of_nat inp) out) else Some false
  end.
Proof.
  intros I. unfold shape_of, all_outputs_dead, decode_imm, is_swap16, is_dup16, below.
  change OP_DUPN with 0xe6. change OP_SWAPN with 0xe7. change OP_EXCHANGE with 0xe8.
  destruct ((0x80 <=? op) && (op <=? 0x8f)) eqn:E1.
  { intros B. replace ((0x90 <=? op) && (op <=? 0x9f)) with false by lia. replace (op =? 0xe7) with false by lia. reflexivity. }
  destruct ((0x90 <=? op) && (op <=? 0x9f)) eqn:E2.
  { intros B. f_equal; lia. }
  destruct (Z.eqb_spec op 0xe6) as [->|N6].
  { specialize (I ltac:(lia)). cbn [Z.eqb orb Pos.eqb andb]. destruct (decode_single_eip imm I) as [(n & -> & -> & ?)|(-> & ->)]; reflexivity. }
  destruct (Z.eqb_spec op 0xe7) as [->|N7].
  { specialize (I ltac:(lia)). cbn [Z.eqb orb Pos.eqb andb]. destruct (decode_single_eip imm I) as [(n & -> & -> & ?)|(-> & ->)]; [|reflexivity].
    intros B. replace ((h <? 0) || (Z.of_nat n <? h)) with true by lia. f_equal. lia. }
  destruct (Z.eqb_spec op 0xe8) as [->|N8].
  { specialize (I ltac:(lia)). cbn [Z.eqb orb Pos.eqb andb]. destruct (decode_pair_eip imm I) as [(n & m & -> & -> & ?)|(-> & ->)]; [|reflexivity].
    intros B. replace ((h <? 0) || (Z.of_nat m <? h)) with true by lia. reflexivity. }
  cbn [orb andb]. destruct (_ || _) eqn:E3; [reflexivity|]. destruct (op =? 0x50); reflexivity.
Qed.

(** Which opcodes may be skipped. *)
Lemma can_skip_sound op imm : can_skip op = true ->
  match shape_of op imm with ShCall | ShPop => False | ShOther => stack_only op | _ => True end /\
  op <> 0x5a /\ op <> 0x55 /\ op <> 0x50.
Proof.
  intros H. assert (C : existsb (Z.eqb op) can_skip_list = true \/ 0x5f <= op <= 0x9f).
  { unfold can_skip, is_dup16, is_swap16 in H. change OP_PUSH0 with 0x5f in H. change OP_PUSH32 with 0x7f in H.
    apply orb_prop in H as [H|H]; [|right; lia]. apply orb_prop in H as [H|H]; [|right; lia].
    apply orb_prop in H as [H|H]; [left; exact H|right; lia]. }
  destruct C as [C|C].
  - apply existsb_exists in C as (x & Hx & E). apply Z.eqb_eq in E. subst x.
    unfold can_skip_list in Hx. cbn [In] in Hx.
    repeat (destruct Hx as [<-|Hx]; [unfold shape_of, stack_only; cbn -[eip_single eip_pair]; try destruct (eip_single imm); try destruct (eip_pair imm) as [[? ?]|];
      (split; [first [exact Logic.I|lia]|repeat split; discriminate])|]). contradiction.
  - split; [|lia]. unfold shape_of, stack_only. destruct ((0x80 <=? op) && (op <=? 0x8f)) eqn:?; [exact Logic.I|].
    destruct ((0x90 <=? op) && (op <=? 0x9f)) eqn:?; [exact Logic.I|].
    replace (op =? 0xe6) with false by lia. replace (op =? 0xe7) with false by lia. replace (op =? 0xe8) with false by lia.
    replace ((op =? 0xf0) || (op =? 0xf1) || (op =? 0xf2) || (op =? 0xf4) || (op =? 0xf5) || (op =? 0xfa)) with false by lia.
    replace (op =? 0x50) with false by lia. lia.
Qed.
Lemma suspend_shape d imm : may_suspend d = true <-> shape_of (d_op d) imm = ShCall.
Proof.
  unfold may_suspend, shape_of. change OP_CALL with 0xf1. change OP_CALLCODE with 0xf2. change OP_DELEGATECALL with 0xf4.
  change OP_STATICCALL with 0xfa. change OP_CREATE with 0xf0. change OP_CREATE2 with 0xf5. set (op := d_op d).
  destruct ((0x80 <=? op) && (op <=? 0x8f)) eqn:?; [split; [lia|discriminate]|].
  destruct ((0x90 <=? op) && (op <=? 0x9f)) eqn:?; [split; [lia|discriminate]|].
  destruct (Z.eqb_spec op 0xe6); [split; [lia|destruct (eip_single imm); discriminate]|].
  destruct (Z.eqb_spec op 0xe7); [split; [lia|destruct (eip_single imm); discriminate]|].
  destruct (Z.eqb_spec op 0xe8); [split; [lia|destruct (eip_pair imm) as [[? ?]|]; discriminate]|].
  destruct ((op =? 0xf0) || (op =? 0xf1) || (op =? 0xf2) || (op =? 0xf4) || (op =? 0xf5) || (op =? 0xfa)) eqn:?; [split; [reflexivity|lia]|].
  destruct (op =? 0x50); split; try discriminate; lia.
Qed.

(** ** One step of the pass against the liveness the run needs *)
Section Run.
Context {W : Type}.
Implicit Types (v : vinst W) (w : W).

(** Position [p] of the whole stack is live when it is below the block's part of the stack, or marked
    in the bit vector; [s] is the height at which bit 0 sits. *)
Definition Lof (lv : list bool) (s p : Z) : Prop := p < s \/ lget lv (p - s) = Some true.
Definition with_d (t : ditem) (d : idata) : ditem := mkI d (it_imm t) (it_in t) (it_out t).

Lemma lof_dead lv s p : lget lv (p - s) = Some false -> ~ Lof lv s p.
Proof. intros E [H|H]; [apply lget_some in E; lia|congruence]. Qed.

Lemma in_Zid t v : lowered t v -> vi_in v = it_inp t /\ vi_out v = it_outp t.
Proof. intros (A & B & _). unfold it_inp, it_outp. lia. Qed.

Lemma operand_live t v d : aligned t -> lowered t v -> (d < vi_in v)%nat -> vi_cin v d = None ->
  const_at (it_in t) (vi_in v - 1 - d) = false.
Proof.
  intros AL (IN & _ & _ & CI & _) D C. rewrite CI in C. unfold snap_const in C. unfold const_at.
  destruct AL as [E|L].
  - rewrite E. destruct (vi_in v - 1 - d)%nat; reflexivity.
  - assert (L' : length (it_in t) = vi_in v) by lia.
    destruct (nth_error (rev (it_in t)) d) as [a|] eqn:E.
    + destruct (nth_error (it_in t) (vi_in v - 1 - d)) as [b|] eqn:E2; [|reflexivity].
      rewrite (nth_error_nth' _ ATop) in E by (rewrite rev_length; lia). rewrite rev_nth in E by lia.
      apply (nth_error_nth _ _ ATop) in E2. rewrite L' in E. replace (vi_in v - S d)%nat with (vi_in v - 1 - d)%nat in E by lia.
      rewrite E2 in E. injection E as ->. destruct a; [discriminate|reflexivity|reflexivity].
    + apply nth_error_None in E. rewrite rev_length in E. lia.
Qed.

Lemma step_live t h lv' lv d' v s :
  dse_step t h lv' = Some (lv, d') -> item_ok t -> aligned t -> Z.of_nat (vi_in v) <= h ->
  lowered (with_d t d') v -> const_output_ok v -> body_ok v ->
  live_step v (s + h) (Lof lv s) (Lof lv' s) /\ noop_ok v.
Proof.
  intros E (NN & IM) AL H LO CO BO.
  destruct (in_Zid _ _ LO) as (IN & OUT). pose proof LO as (LI & LOu & LN & LC & LCo & LM).
  unfold dse_step in E. destruct (f_noop _ || f_disabled _ || f_unknown _) eqn:F1.
  { injection E as <- <-. cbn [with_d it_d it_imm] in LM, LN. rewrite NN in F1. cbn [orb] in F1.
    unfold meaning_ok in LM. rewrite F1 in LM. destruct LM as (B & f & EV & AH). unfold body_ok in BO. rewrite EV, B in BO.
    destruct BO as (_ & B1 & B2 & _). unfold live_step, noop_ok. rewrite EV, B1, B2. rewrite LN, NN. split; [|discriminate].
    split; [intros _ _ _ d D; lia|]. split; [auto|discriminate]. }
  rewrite NN in F1. cbn [orb] in F1.
  assert (MN : d' = it_d t \/ d' = set_noop (it_d t)).
  { match type of E with context [match ?x with Some _ => _ | None => None end = Some (lv, d')] => destruct x as [[]|] end; try discriminate; [injection E as <- <-; auto|].
    destruct (transfer_liveness _ _ _ _ _ _ _ _); [|discriminate]. destruct (may_suspend _).
    - destruct (fill_prefix _ _); [|discriminate]. injection E as <- <-. auto.
    - injection E as <- <-. auto. }
  assert (OPE : d_op d' = d_op (it_d t) /\ d_io d' = d_io (it_d t) /\ is_diverging d' = is_diverging (it_d t) /\
                f_disabled (d_flags d') || f_unknown (d_flags d') = false).
  { destruct MN as [->| ->]; auto. }
  destruct OPE as (OP & IO & DV & FL). unfold meaning_ok in LM. cbn [with_d it_d it_imm] in LM, LI, LOu, LN. rewrite FL, OP, DV in LM.
  unfold it_inp, it_outp in *. cbn [with_d it_d] in IN, OUT. rewrite IO in *. clear FL.
  pose proof (shape_wf (d_op (it_d t)) (it_imm t) IM) as SW.
  assert (SH : match shape_of (d_op (it_d t)) (it_imm t) with ShDup n => Z.of_nat n <= h | ShSwap a b => Z.of_nat b < h | _ => True end).
  { destruct (shape_of _ _); auto; unfold body_ok in BO; rewrite LM in BO; destruct (vi_body v); try contradiction; lia. }
  assert (SH2 : match shape_of (d_op (it_d t)) (it_imm t) with ShSwap a b => Z.of_nat b < h | _ => True end) by (destruct (shape_of _ _); auto).
  pose proof (transfer_shape lv' (d_op (it_d t)) (it_imm t) h (Z.to_nat (fst (d_io (it_d t)))) (Z.to_nat (snd (d_io (it_d t)))) (it_in t) (it_out t) IM SH) as TS.
  pose proof (dead_shape lv' (d_op (it_d t)) (it_imm t) h (Z.to_nat (fst (d_io (it_d t)))) (Z.to_nat (snd (d_io (it_d t)))) IM SH2) as DS.
  rewrite TS, DS in E. clear TS DS SH2. rewrite <- IN, <- OUT in E.
  destruct (can_skip (d_op (it_d t)) && negb (is_branching (it_d t)) && negb (is_diverging (it_d t))) eqn:CS.
  - (* skippable *)
    apply andb_prop in CS as [CS C3]. apply andb_prop in CS as [CS C2].
    destruct (can_skip_sound _ (it_imm t) CS) as (SK & _).
    destruct (shape_of (d_op (it_d t)) (it_imm t)) as [n|a b| | | |] eqn:ES; try contradiction.
    + (* dup *)
      unfold body_ok in BO. rewrite LM in BO. destruct (vi_body v) eqn:EB; try contradiction. destruct BO as (<- & B1 & B2 & B3).
      destruct (lget lv' h) as [x|] eqn:Eh; [|discriminate]. cbn [option_map] in E. unfold live_step, noop_ok. rewrite LM, EB.
      destruct x; cbn [negb] in E.
      * assert (MS : may_suspend (it_d t) = false).
        { destruct (may_suspend (it_d t)) eqn:X; [|reflexivity]. apply (suspend_shape _ (it_imm t)) in X. congruence. }
        destruct (dup_live lv' h (Z.of_nat n)) as [l1|] eqn:ED; [|discriminate]. rewrite MS in E. injection E as <- <-.
        destruct (dup_spec _ _ (Z.of_nat n) _ ltac:(lia) ED) as (_ & x & Ex & G). rewrite Eh in Ex. injection Ex as <-.
        rewrite LN, NN. split; [|discriminate]. split.
        -- intros p P [Q|Q]; [left; exact Q|right]. rewrite G, andb_true_r. destruct (_ =? h - _); [reflexivity|].
           replace (p - s =? h) with false by lia. exact Q.
        -- intros _ _ _. right. rewrite G. replace (s + h - Z.of_nat n - s =? h - Z.of_nat n) with true by lia. reflexivity.
      * injection E as <- <-. cbn [set_noop set_flags d_flags f_noop] in LN. rewrite LN. split; [|auto]. split; [auto|].
        apply lof_dead. replace (s + h - s) with h by lia. exact Eh.
    + (* swap *)
      unfold body_ok in BO. rewrite LM in BO. destruct (vi_body v) eqn:EB; try contradiction. destruct BO as (<- & B0 & B1 & B2 & B3).
      destruct (both_dead lv' _ _) as [x|] eqn:Eh; [|discriminate]. unfold live_step, noop_ok. rewrite LM, EB.
      destruct x.
      * injection E as <- <-. cbn [set_noop set_flags d_flags f_noop] in LN. rewrite LN. split; [|auto]. split; [auto|].
        destruct (both_spec _ _ _ Eh) as (D1 & D2). split; apply lof_dead; [rewrite <- D1|rewrite <- D2]; f_equal; zonly; lia.
      * assert (MS : may_suspend (it_d t) = false).
        { destruct (may_suspend (it_d t)) eqn:X; [|reflexivity]. apply (suspend_shape _ (it_imm t)) in X. congruence. }
        destruct (swap_live lv' _ _) as [l1|] eqn:ED; [|discriminate]. rewrite MS in E. injection E as <- <-.
        destruct (swap_spec _ _ _ _ ED) as (_ & x & y & Ex & Ey & G).
        rewrite LN, NN. split; [|discriminate]. split; [|split].
        -- intros p P N1 N2 [Q|Q]; [left; exact Q|right]. rewrite G. destruct (Z.eqb_spec (p - s) (h - 1 - Z.of_nat b)); [lia|].
           destruct (Z.eqb_spec (p - s) (h - 1 - Z.of_nat a)); [lia|exact Q].
        -- intros [Q|Q] _; [lia|right]. rewrite G. destruct (Z.eqb_spec (s + h - 1 - Z.of_nat a - s) (h - 1 - Z.of_nat b)); [lia|].
           destruct (Z.eqb_spec (s + h - 1 - Z.of_nat a - s) (h - 1 - Z.of_nat a)); [|lia]. rewrite <- Ey, <- Q. f_equal. lia.
        -- intros [Q|Q] _; [lia|right]. rewrite G. destruct (Z.eqb_spec (s + h - 1 - Z.of_nat b - s) (h - 1 - Z.of_nat b)); [|lia].
           rewrite <- Ex, <- Q. f_equal. lia.
    + (* undecodable *)
      assert (MS : may_suspend (it_d t) = false).
      { destruct (may_suspend (it_d t)) eqn:X; [|reflexivity]. apply (suspend_shape _ (it_imm t)) in X. congruence. }
      rewrite MS in E. injection E as <- <-. destruct LM as (B & f & EV & AH). unfold body_ok in BO. rewrite EV, B in BO.
      destruct BO as (_ & B1 & B2 & _). unfold live_step, noop_ok. rewrite EV, B1, B2, LN, NN. split; [|discriminate].
      split; [intros _ _ _ d D; lia|]. split; [auto|discriminate].
    + (* other *)
      assert (MS : may_suspend (it_d t) = false).
      { destruct (may_suspend (it_d t)) eqn:X; [|reflexivity]. apply (suspend_shape _ (it_imm t)) in X. congruence. }
      destruct LM as (NP & f & EV & PU & HA). unfold live_step, noop_ok. rewrite EV.
      destruct (if (0 <? vi_out v)%nat then Some (outputs_dead lv' (h - Z.of_nat (vi_in v)) (vi_out v)) else Some false) as [[]|] eqn:Eh; [| |destruct (0 <? vi_out v)%nat; discriminate].
      * injection E as <- <-. cbn [set_noop set_flags d_flags f_noop] in LN. rewrite LN.
        destruct (0 <? vi_out v)%nat; [|discriminate]. injection Eh as Eh. destruct (PU SK) as (P1 & P2).
        split; [|intros _; split; [exact P1|exact P2]].
        split; [discriminate|]. split; [auto|]. intros _ p P. apply lof_dead. apply (outputs_spec _ _ _ Eh). zonly; lia.
      * rewrite MS in E. destruct (generic_transfer _ _ _ _ _ _) as [l1|] eqn:EG; [|discriminate]. injection E as <- <-.
        rewrite LN, NN. split; [|discriminate]. unfold generic_transfer in EG.
        destruct (kill_outputs _ _ _) as [l2|] eqn:EK; [|discriminate]. destruct (kill_spec _ _ _ _ EK) as (_ & GK).
        assert (KP : forall p, 0 <= p < s + h - Z.of_nat (vi_in v) -> lget l2 (p - s) = lget lv' (p - s)).
        { intros p P. rewrite GK. destruct ((h - Z.of_nat (vi_in v) <=? p - s) && _) eqn:X; [revert X; zonly; lia|reflexivity]. }
        destruct ((0 <? vi_out v)%nat && match it_out t with Some a => is_const a | None => false end) eqn:Ec.
        -- injection EG as <-. split; [|split; [|discriminate]].
           ++ intros _ C. exfalso. rewrite LCo in C. cbn [with_d it_out] in C. unfold out_const in C. destruct (it_out t) as [[]|]; try discriminate C; cbn in Ec; revert Ec; zonly; lia.
           ++ intros p P [Q|Q]; [left; exact Q|right]. rewrite KP by exact P. exact Q.
        -- destruct (mark_spec _ _ _ _ _ EG) as (_ & GM). split; [|split; [|discriminate]].
           ++ intros _ _ _ d D C. right. rewrite GM.
              assert (X := operand_live (with_d t (it_d t)) v d AL LO D C). cbn [with_d it_in] in X.
              replace (Z.to_nat (s + h - 1 - Z.of_nat d - s - (h - Z.of_nat (vi_in v)))) with (vi_in v - 1 - d)%nat by (zonly; lia). rewrite X.
              replace ((h - Z.of_nat (vi_in v) <=? s + h - 1 - Z.of_nat d - s) && (s + h - 1 - Z.of_nat d - s <? h - Z.of_nat (vi_in v) + Z.of_nat (vi_in v))) with true by (zonly; lia). reflexivity.
           ++ intros p P [Q|Q]; [left; exact Q|right]. rewrite GM.
              destruct ((h - Z.of_nat (vi_in v) <=? p - s) && (p - s <? h - Z.of_nat (vi_in v) + Z.of_nat (vi_in v))) eqn:X; [revert X; zonly; lia|]. cbn [andb]. rewrite KP by exact P. exact Q.
  - (* not skippable *)
    assert (ED : d' = it_d t).
    { destruct (match shape_of _ _ with ShDup _ => _ | _ => _ end); [|discriminate]. destruct (may_suspend _).
      - destruct (fill_prefix _ _); [|discriminate]. now injection E.
      - now injection E. }
    subst d'. rewrite NN in LN. split; [|unfold noop_ok; rewrite LN; discriminate]. clear MN OP IO DV CS.
    destruct (shape_of (d_op (it_d t)) (it_imm t)) as [n|a b| | | |] eqn:ES.
    + assert (MS : may_suspend (it_d t) = false).
      { destruct (may_suspend (it_d t)) eqn:X; [|reflexivity]. apply (suspend_shape _ (it_imm t)) in X. congruence. }
      unfold body_ok in BO. rewrite LM in BO. destruct (vi_body v) eqn:EB; try contradiction. destruct BO as (<- & B1 & B2 & B3).
      destruct (dup_live lv' h (Z.of_nat n)) as [l1|] eqn:ED; [|discriminate]. rewrite MS in E. injection E as <-.
      destruct (dup_spec _ _ (Z.of_nat n) _ ltac:(lia) ED) as (_ & x & Ex & G). unfold live_step. rewrite LM, LN. split.
      * intros p P [Q|Q]; [left; exact Q|right]. rewrite G. destruct ((_ =? h - _) && x); [reflexivity|].
        replace (p - s =? h) with false by lia. exact Q.
      * intros [Q|Q] _ _; [lia|]. right. rewrite G. replace (s + h - s) with h in Q by lia. rewrite Ex in Q. injection Q as ->.
        replace (s + h - Z.of_nat n - s =? h - Z.of_nat n) with true by lia. reflexivity.
    + assert (MS : may_suspend (it_d t) = false).
      { destruct (may_suspend (it_d t)) eqn:X; [|reflexivity]. apply (suspend_shape _ (it_imm t)) in X. congruence. }
      unfold body_ok in BO. rewrite LM in BO. destruct (vi_body v) eqn:EB; try contradiction. destruct BO as (<- & B0 & B1 & B2 & B3).
      destruct (swap_live lv' _ _) as [l1|] eqn:ED; [|discriminate]. rewrite MS in E. injection E as <-.
      destruct (swap_spec _ _ _ _ ED) as (_ & x & y & Ex & Ey & G). unfold live_step. rewrite LM, LN. split; [|split].
      * intros p P N1 N2 [Q|Q]; [left; exact Q|right]. rewrite G. destruct (Z.eqb_spec (p - s) (h - 1 - Z.of_nat b)); [lia|].
        destruct (Z.eqb_spec (p - s) (h - 1 - Z.of_nat a)); [lia|exact Q].
      * intros [Q|Q] _; [lia|right]. rewrite G. destruct (Z.eqb_spec (s + h - 1 - Z.of_nat a - s) (h - 1 - Z.of_nat b)); [lia|].
        destruct (Z.eqb_spec (s + h - 1 - Z.of_nat a - s) (h - 1 - Z.of_nat a)); [|lia]. rewrite <- Ey, <- Q. f_equal. lia.
      * intros [Q|Q] _; [lia|right]. rewrite G. destruct (Z.eqb_spec (s + h - 1 - Z.of_nat b - s) (h - 1 - Z.of_nat b)); [|lia].
        rewrite <- Ex, <- Q. f_equal. lia.
    + assert (MS : may_suspend (it_d t) = false).
      { destruct (may_suspend (it_d t)) eqn:X; [|reflexivity]. apply (suspend_shape _ (it_imm t)) in X. congruence. }
      rewrite MS in E. injection E as <-. destruct LM as (B & f & EV & AH). unfold body_ok in BO. rewrite EV, B in BO.
      destruct BO as (_ & B1 & B2 & _). unfold live_step. rewrite EV, B1, B2, LN.
      split; [intros _ _ _ d D; lia|]. split; [auto|discriminate].
    + (* call *)
      assert (MS : may_suspend (it_d t) = true) by (apply (suspend_shape _ (it_imm t)); exact ES).
      destruct LM as (f & EV & CL). unfold body_ok in BO. rewrite EV in BO. destruct (vi_body v) eqn:EB; try contradiction.
      destruct (generic_transfer _ _ _ _ _ _) as [l1|] eqn:EG; [|discriminate]. rewrite MS in E.
      destruct (fill_prefix l1 _) as [l2|] eqn:EF; [|discriminate]. injection E as <-.
      destruct (fill_spec _ _ _ EF) as (_ & GF). unfold live_step. rewrite EV.
      assert (CO0 : vi_cout v = None). { destruct (vi_cout v) as [k|] eqn:Ek; [|reflexivity]. specialize (CO k Ek). rewrite EV in CO. contradiction. }
      split.
      * intros d D C. right. rewrite GF. destruct ((0 <=? s + h - 1 - Z.of_nat d - s) && (s + h - 1 - Z.of_nat d - s <? _)); [reflexivity|].
        unfold generic_transfer in EG. destruct (kill_outputs _ _ _) as [l3|] eqn:EK; [|discriminate].
        destruct ((0 <? vi_out v)%nat && match it_out t with Some a => is_const a | None => false end) eqn:Ec.
        { exfalso. rewrite LCo in CO0. cbn [with_d it_out] in CO0. unfold out_const in CO0. destruct (it_out t) as [[]|]; try discriminate CO0; cbn in Ec; lia. }
        destruct (mark_spec _ _ _ _ _ EG) as (_ & GM). rewrite GM.
        assert (X := operand_live (with_d t (it_d t)) v d AL LO D C). cbn [with_d it_in] in X.
        replace (Z.to_nat (s + h - 1 - Z.of_nat d - s - (h - Z.of_nat (vi_in v)))) with (vi_in v - 1 - d)%nat by (zonly; lia). rewrite X.
        replace ((h - Z.of_nat (vi_in v) <=? s + h - 1 - Z.of_nat d - s) && (s + h - 1 - Z.of_nat d - s <? h - Z.of_nat (vi_in v) + Z.of_nat (vi_in v))) with true by (zonly; lia). reflexivity.
      * intros p P. destruct (Z.lt_ge_cases p s) as [Q|Q]; [left; exact Q|]. right. rewrite GF.
        replace ((0 <=? p - s) && (p - s <? h + (snd (d_io (it_d t)) - fst (d_io (it_d t))))) with true by lia. reflexivity.
    + (* pop *)
      assert (MS : may_suspend (it_d t) = false).
      { destruct (may_suspend (it_d t)) eqn:X; [|reflexivity]. apply (suspend_shape _ (it_imm t)) in X. congruence. }
      destruct LM as (EB & f & EV). unfold body_ok in BO. rewrite EV, EB in BO. destruct BO as (_ & B1 & B2 & B3).
      destruct (lset lv' (h - 1) false) as [l1|] eqn:ED; [|discriminate]. rewrite MS in E. injection E as <-.
      destruct (lset_spec _ _ _ _ ED) as (_ & _ & G). unfold live_step. rewrite EV, EB, B1, B2, LN.
      split; [congruence|]. split; [|discriminate]. intros p P [Q|Q]; [left; exact Q|right]. rewrite G.
      destruct (Z.eqb_spec (p - s) (h - 1)); [lia|exact Q].
    + assert (MS : may_suspend (it_d t) = false).
      { destruct (may_suspend (it_d t)) eqn:X; [|reflexivity]. apply (suspend_shape _ (it_imm t)) in X. congruence. }
      destruct LM as (NP & f & EV & PU & HA). unfold live_step. rewrite EV, LN.
      destruct (generic_transfer _ _ _ _ _ _) as [l1|] eqn:EG; [|discriminate]. rewrite MS in E. injection E as <-.
      unfold generic_transfer in EG. destruct (kill_outputs _ _ _) as [l2|] eqn:EK; [|discriminate]. destruct (kill_spec _ _ _ _ EK) as (_ & GK).
      assert (KP : forall p, 0 <= p < s + h - Z.of_nat (vi_in v) -> lget l2 (p - s) = lget lv' (p - s)).
      { intros p P. rewrite GK. destruct ((h - Z.of_nat (vi_in v) <=? p - s) && _) eqn:X; [revert X; zonly; lia|reflexivity]. }
      destruct ((0 <? vi_out v)%nat && match it_out t with Some a => is_const a | None => false end) eqn:Ec.
      * injection EG as <-. split; [|split; [|discriminate]].
        -- intros _ C. exfalso. rewrite LCo in C. cbn [with_d it_out] in C. unfold out_const in C. destruct (it_out t) as [[]|]; try discriminate C; cbn in Ec; revert Ec; zonly; lia.
        -- intros p P [Q|Q]; [left; exact Q|right]. rewrite KP by exact P. exact Q.
      * destruct (mark_spec _ _ _ _ _ EG) as (_ & GM). split; [|split; [|discriminate]].
        -- intros _ _ _ d D C. right. rewrite GM.
           assert (X := operand_live (with_d t (it_d t)) v d AL LO D C). cbn [with_d it_in] in X.
           replace (Z.to_nat (s + h - 1 - Z.of_nat d - s - (h - Z.of_nat (vi_in v)))) with (vi_in v - 1 - d)%nat by (zonly; lia). rewrite X.
           replace ((h - Z.of_nat (vi_in v) <=? s + h - 1 - Z.of_nat d - s) && (s + h - 1 - Z.of_nat d - s <? h - Z.of_nat (vi_in v) + Z.of_nat (vi_in v))) with true by (zonly; lia). reflexivity.
        -- intros p P [Q|Q]; [left; exact Q|right]. rewrite GM.
           destruct ((h - Z.of_nat (vi_in v) <=? p - s) && (p - s <? h - Z.of_nat (vi_in v) + Z.of_nat (vi_in v))) eqn:X; [revert X; zonly; lia|]. cbn [andb]. rewrite KP by exact P. exact Q.
Qed.

(** ** Along a block *)
Fixpoint remark (l : list ditem) (ds : list idata) : list ditem :=
  match l, ds with t :: l', d :: ds' => with_d t d :: remark l' ds' | _, _ => [] end.
Definition after (t : ditem) (h : Z) : Z := h + (snd (d_io (it_d t)) - fst (d_io (it_d t))).
Fixpoint needs (l : list ditem) (h mx : Z) : Prop :=
  match l with [] => True | t :: l' => fst (d_io (it_d t)) <= h /\ after t h <= mx /\ needs l' (after t h) mx end.
Fixpoint out_height (l : list ditem) (h : Z) : Z := match l with [] => h | t :: l' => out_height l' (after t h) end.

Lemma step_keeps t h lv' lv d' : dse_step t h lv' = Some (lv, d') ->
  d' = it_d t \/ (d' = set_noop (it_d t) /\ ends_here (it_d t) = false /\ is_diverging (it_d t) = false).
Proof.
  unfold dse_step. intros E. destruct (f_noop _ || f_disabled _ || f_unknown _) eqn:F1; [left; now injection E|].
  destruct (can_skip (d_op (it_d t)) && negb (is_branching (it_d t)) && negb (is_diverging (it_d t))) eqn:CS.
  - match type of E with context [match ?x with Some _ => _ | None => None end = Some (lv, d')] => destruct x as [[]|] end; try discriminate.
    + injection E as <- <-. right. split; [reflexivity|].
      destruct (can_skip_sound (d_op (it_d t)) (it_imm t)) as (SH & A & B & C); [lia|]. unfold ends_here.
      assert (MS : may_suspend (it_d t) = false).
      { destruct (may_suspend (it_d t)) eqn:X; [|reflexivity]. apply (suspend_shape _ (it_imm t)) in X. rewrite X in SH. contradiction. }
      lia.
    + left. destruct (transfer_liveness _ _ _ _ _ _ _ _); [|discriminate]. destruct (may_suspend _).
      * destruct (fill_prefix _ _); [|discriminate]. now injection E.
      * now injection E.
  - left. destruct (transfer_liveness _ _ _ _ _ _ _ _); [|discriminate]. destruct (may_suspend _).
    + destruct (fill_prefix _ _); [|discriminate]. now injection E.
    + now injection E.
Qed.

Definition ok_unmarked v : Prop := inst_ok (unmark v).
Lemma unmarked_parts v : ok_unmarked v -> const_inputs_ok v /\ const_output_ok v /\ body_ok v.
Proof. intros (A & B & C & _). auto. Qed.

Lemma estep_len v t w st w' st' : lowered t v -> body_ok v -> estep v w st = Some (ENext w' st') ->
  Z.of_nat (length st') = after t (Z.of_nat (length st)).
Proof.
  intros (LI & LO & _ & _ & _ & LM) BO E. unfold after. rewrite <- LI, <- LO. clear LI LO. unfold estep in E.
  destruct (Nat.ltb_spec (length st) (vi_in v)) as [|N]; [discriminate|]. unfold body_ok in BO.
  destruct (vi_evm v) as [f|n|a b|f] eqn:EV.
  - destruct BO as (OUT & _). destruct (f w (firstn (vi_in v) st)) as [w1 [outs|]] eqn:Ef; [|discriminate]. injection E as <- <-.
    rewrite app_length, skipn_length. rewrite (OUT w (firstn (vi_in v) st) outs); [lia|rewrite firstn_length; lia|now rewrite Ef].
  - injection E as <- <-. destruct (vi_body v); try contradiction. cbn [length]. lia.
  - injection E as <- <-. destruct (vi_body v); try contradiction. unfold swap_nth. rewrite !length_upd. lia.
  - destruct (vi_body v); try contradiction. unfold meaning_ok in LM.
    destruct (f_disabled _ || f_unknown _); [destruct LM as (_ & g & G & _); congruence|].
    destruct (shape_of _ _); try congruence;
      try (destruct LM as (_ & g & G & _); congruence); try (destruct LM as (_ & g & G); congruence).
    destruct LM as (g & G & HL). rewrite EV in G. injection G as <-.
    destruct (f w (firstn (vi_in v) st) (skipn (vi_in v) st)) as [w1 [s1|]] eqn:Ef; [|discriminate]. injection E as <- <-.
    rewrite (HL _ _ _ _ _ Ef), skipn_length. lia.
Qed.

Lemma walk_lives l : forall h mx exit lv ds vs,
  dse_walk l h exit = Some (lv, ds) -> Forall item_ok l -> Forall aligned l -> needs l h mx ->
  Forall2 lowered (remark l ds) vs -> Forall ok_unmarked vs ->
  length ds = length l /\ Forall noop_ok vs /\
  forall s w st, Z.of_nat (length st) = s + h -> lives vs w st (Lof lv s) (Lof exit s).
Proof.
  induction l as [|t l IH]; intros h mx exit lv ds vs E IT AL NE LO OK.
  { cbn in E. injection E as <- <-. inversion LO; subst. repeat split; [constructor|]. intros s w st _. cbn. auto. }
  cbn [dse_walk] in E. fold (after t h) in E. destruct (dse_walk l (after t h) exit) as [[lv1 ds1]|] eqn:E1; [|discriminate].
  destruct (dse_step t h lv1) as [[lv2 d2]|] eqn:E2; [|discriminate]. injection E as <- <-.
  cbn [remark] in LO. inversion LO as [|? v ? vs' L1 L2]; subst. inversion IT; inversion AL; inversion OK; subst.
  cbn [needs] in NE. destruct NE as (N1 & N2 & N3).
  destruct (IH _ _ _ _ _ _ E1 ltac:(assumption) ltac:(assumption) N3 L2 ltac:(assumption)) as (LN & NO & LV).
  destruct (unmarked_parts v ltac:(assumption)) as (CI & CO & BO).
  assert (IOE : d_io d2 = d_io (it_d t)) by (destruct (step_keeps _ _ _ _ _ E2) as [->|(-> & _)]; reflexivity).
  assert (HI : Z.of_nat (vi_in v) <= h).
  { destruct L1 as (LI & _). cbn [with_d it_d] in LI. rewrite IOE in LI. lia. }
  split; [cbn [length]; lia|]. split.
  { constructor; [|exact NO]. destruct (step_live t h lv1 lv2 d2 v 0 E2); auto. }
  intros s w st L. cbn [lives]. exists (Lof lv1 s). split.
  - rewrite L. destruct (step_live t h lv1 lv2 d2 v s E2); auto.
  - destruct (estep v w st) as [[|w' st']|] eqn:ES; auto. apply LV.
    rewrite (estep_len _ _ _ _ _ _ L1 BO ES). unfold after. cbn [with_d it_d]. rewrite IOE. lia.
Qed.


(** The last instruction is not skipped. *)
Lemma lowered_arity t v : lowered t v -> body_ok v -> arity_ok t.
Proof.
  intros (LI & LO & _ & _ & _ & LM) BO. unfold arity_ok. split; [lia|]. split; [lia|]. intros F. unfold meaning_ok in LM. rewrite F in LM.
  unfold body_ok in BO. rewrite (surjective_pairing (d_io (it_d t))), <- LI, <- LO.
  destruct (shape_of _ _); auto.
  - rewrite LM in BO. destruct (vi_body v); try contradiction. f_equal; lia.
  - rewrite LM in BO. destruct (vi_body v); try contradiction. f_equal; lia.
  - destruct LM as (B & f & EV). rewrite EV, B in BO. destruct BO as (_ & B1 & B2 & _). rewrite B1, B2. reflexivity.
Qed.
Lemma step_last t h exit lv d' : dse_step t h exit = Some (lv, d') -> item_ok t -> arity_ok t -> fst (d_io (it_d t)) <= h ->
  is_diverging (it_d t) = true \/ (forall p, 0 <= p < after t h -> lget exit p = Some true) -> d' = it_d t.
Proof.
  intros E (NN & IM) (A1 & A2 & A3) H X. destruct X as [X|X].
  { destruct (step_keeps _ _ _ _ _ E) as [->|(_ & _ & Y)]; [reflexivity|congruence]. }
  unfold dse_step in E. destruct (f_noop _ || f_disabled _ || f_unknown _) eqn:F1; [now injection E|].
  rewrite NN in F1. cbn [orb] in F1. specialize (A3 F1). unfold after in X.
  pose proof (shape_wf (d_op (it_d t)) (it_imm t) IM) as SW.
  assert (SH2 : match shape_of (d_op (it_d t)) (it_imm t) with ShSwap a b => Z.of_nat b < h | _ => True end).
  { destruct (shape_of _ _); auto. rewrite A3 in H. cbn [fst] in H. lia. }
  rewrite (dead_shape exit (d_op (it_d t)) (it_imm t) h (it_inp t) (it_outp t) IM SH2) in E.
  match type of E with context [match ?x with Some _ => _ | None => None end = Some (lv, d')] => destruct x as [[]|] eqn:D end; try discriminate.
  - exfalso. destruct (can_skip _ && _ && _); [|discriminate].
    assert (G : forall (b : bool) p, (if b then Some (outputs_dead exit (h - Z.of_nat (it_inp t)) p) else Some false) = Some true ->
              p = it_outp t -> b = (0 <? it_outp t)%nat -> False).
    { intros b p E1 -> ->. destruct (Nat.ltb_spec 0 (it_outp t)) as [LT|]; [|discriminate]. injection E1 as E1.
      pose proof (outputs_spec _ _ _ E1 (h - Z.of_nat (it_inp t)) ltac:(lia)) as Y.
      unfold it_inp, it_outp in *. rewrite X in Y by lia. discriminate. }
    destruct (shape_of _ _) as [n|a b| | | |]; try (now eapply G; eauto); try discriminate.
    + rewrite A3 in X, H. cbn [fst snd] in X, H. rewrite X in D by lia. discriminate.
    + rewrite A3 in X, H. cbn [fst snd] in X, H. apply both_spec in D as (D & _). rewrite X in D by lia. discriminate.
  - destruct (transfer_liveness _ _ _ _ _ _ _ _); [|discriminate]. destruct (may_suspend _).
    + destruct (fill_prefix _ _); [|discriminate]. now injection E.
    + now injection E.
Qed.

(** Which instructions the walk marks: none after which a section can start. *)
Fixpoint marks_ok (l : list ditem) (ds : list idata) : Prop :=
  match l, ds with
  | [], [] => True
  | t :: l', d :: ds' =>
      (d = it_d t \/ (d = set_noop (it_d t) /\ l' <> [] /\ ends_here (it_d t) = false)) /\ marks_ok l' ds'
  | _, _ => False
  end.
Lemma walk_marks l : forall h mx exit lv ds, dse_walk l h exit = Some (lv, ds) -> Forall item_ok l -> Forall arity_ok l -> needs l h mx ->
  last_diverges l = true \/ (forall p, 0 <= p < out_height l h -> lget exit p = Some true) -> marks_ok l ds.
Proof.
  induction l as [|t l IH]; intros h mx exit lv ds E IT AR NE X.
  { cbn in E. injection E as <- <-. exact Logic.I. }
  cbn [dse_walk] in E. fold (after t h) in E. destruct (dse_walk l (after t h) exit) as [[lv1 ds1]|] eqn:E1; [|discriminate].
  destruct (dse_step t h lv1) as [[lv2 d2]|] eqn:E2; [|discriminate]. injection E as <- <-.
  inversion IT; inversion AR; subst. cbn [needs] in NE. destruct NE as (N1 & N2 & N3). cbn [marks_ok]. destruct l as [|t' l].
  - cbn in E1. injection E1 as <- <-. split; [left|exact Logic.I]. eapply step_last; eauto.
  - split.
    + destruct (step_keeps _ _ _ _ _ E2) as [->|(-> & Y & _)]; [auto|]. right. repeat split; auto. discriminate.
    + eapply IH; eauto.
Qed.
Lemma walk_none l : marks_ok l (map it_d l).
Proof. induction l; cbn; auto. Qed.

Lemma ends_marked l : forall ds (vs : list (vinst W)) nh, marks_ok l ds -> Forall2 lowered (remark l ds) vs -> Forall item_ok l ->
  heads_ok l vs -> ends_ok (map unmark vs) nh -> ends_ok vs nh.
Proof.
  induction l as [|t l IH]; intros ds vs nh MO LO IT HO EN.
  { destruct ds; [|contradiction]. inversion LO; subst. exact Logic.I. }
  destruct ds as [|d ds]; [contradiction|]. cbn [remark] in LO. inversion LO as [|? v ? vs' L1 L2]; subst. clear LO.
  inversion IT as [|? ? IT1 IT2]; subst. cbn [marks_ok] in MO. destruct MO as (MO & MO').
  cbn [map ends_ok] in EN |- *. destruct EN as (EN1 & _ & EN3).
  replace (match map unmark vs' with [] => nh | j :: _ => is_head j end) with (match vs' with [] => nh | j :: _ => is_head j end) in EN1 by (destruct vs'; reflexivity).
  split; [exact EN1|]. split.
  - intros NV. destruct L1 as (_ & _ & LN & _). rewrite LN in NV. cbn [with_d it_d] in NV.
    destruct MO as [->|(-> & NL & EH)]; [destruct IT1; congruence|].
    destruct l as [|t' l]; [congruence|]. destruct ds as [|d' ds]; [contradiction|]. cbn [remark] in L2. inversion L2; subst.
    cbn [heads_ok] in HO. destruct HO as (HO & _). destruct (is_head y) eqn:HD; [|reflexivity]. rewrite HO in EH by reflexivity. discriminate.
  - destruct vs' as [|v' vs']; [exact Logic.I|]. eapply IH; eauto. cbn [heads_ok] in HO. apply HO.
Qed.

(** ** The block summary *)
Definition ios_of (l : list ditem) : list (Z * Z) := map (fun t => d_io (it_d t)) l.
Lemma deepest_nonneg l h : 0 <= deepest l h.
Proof. revert h. induction l as [|[i o] l IH]; intros h; cbn [deepest]; [lia|]. specialize (IH (h - i + o)). lia. Qed.
Lemma highest_nonneg l h : 0 <= highest l h.
Proof. revert h. induction l as [|[i o] l IH]; intros h; cbn [highest]; [lia|]. specialize (IH (h - i + o)). lia. Qed.
Lemma summary_spec l : forall s, 0 <= s_inputs s -> 0 <= s_growth s ->
  let s' := fold_left stack_process l s in
  s_inputs s' = Z.max (s_inputs s) (deepest l (s_diff s)) /\ s_growth s' = Z.max (s_growth s) (highest l (s_diff s)) /\
  s_diff s' = fold_left (fun h io => h + (snd io - fst io)) l (s_diff s).
Proof.
  induction l as [|[i o] l IH]; intros s A B; cbn [fold_left deepest highest]; [lia|].
  destruct (IH (stack_process s (i, o))) as (E1 & E2 & E3); [unfold stack_process; cbn [s_inputs]; lia|unfold stack_process; cbn [s_growth]; lia|].
  cbv zeta. rewrite E1, E2, E3. unfold stack_process. cbn [s_inputs s_growth s_diff fst snd].
  replace (s_diff s + (o - i)) with (s_diff s - i + o) by lia. split; [lia|]. split; [lia|]. reflexivity.
Qed.
Lemma needs_of l : forall h D G, deepest (ios_of l) h <= D -> highest (ios_of l) h <= G -> needs l (D + h) (D + G).
Proof.
  induction l as [|t l IH]; intros h D G A B; cbn [needs]; [exact Logic.I|].
  unfold ios_of in A, B. cbn [map] in A, B. destruct (d_io (it_d t)) as [i o] eqn:E. cbn [deepest highest] in A, B. unfold after. rewrite E. cbn [fst snd].
  split; [lia|]. split; [lia|]. replace (D + h + (o - i)) with (D + (h - i + o)) by lia. apply IH; unfold ios_of; lia.
Qed.
Lemma out_height_fold l : forall h D, out_height l (D + h) = D + fold_left (fun h io => h + (snd io - fst io)) (ios_of l) h.
Proof.
  induction l as [|t l IH]; intros h D; cbn; [reflexivity|]. unfold after.
  replace (D + h + (snd (d_io (it_d t)) - fst (d_io (it_d t)))) with (D + (h + (snd (d_io (it_d t)) - fst (d_io (it_d t))))) by lia. apply IH.
Qed.
Lemma out_range l : forall h mx, needs l h mx -> Forall arity_ok l -> 0 <= h <= mx -> 0 <= out_height l h <= mx.
Proof.
  induction l as [|t l IH]; intros h mx NE AR H; cbn [out_height]; [exact H|]. cbn [needs] in NE. destruct NE as (N1 & N2 & N3).
  inversion AR as [|? ? A1 A2]; subst. apply IH; auto. destruct A1 as (B1 & B2 & _). unfold after in *. lia.
Qed.
Lemma summary_facts l : Forall arity_ok l -> representable l ->
  exists D G, stack_section (block_summary l) = (D, G) /\ 0 <= D /\ 0 <= G /\ needs l D (D + G) /\
    out_height l D = D + s_diff (block_summary l) /\ 0 <= out_height l D <= D + G /\
    D = deepest (ios_of l) 0 /\ G = highest (ios_of l) 0.
Proof.
  intros AR (R1 & R2). fold (ios_of l) in R1, R2. unfold block_summary. fold (ios_of l).
  destruct (summary_spec (ios_of l) s_init ltac:(cbn; lia) ltac:(cbn; lia)) as (E1 & E2 & E3). cbv zeta in E1, E2, E3.
  change (s_inputs s_init) with 0 in E1. change (s_growth s_init) with 0 in E2. change (s_diff s_init) with 0 in E1, E2, E3.
  pose proof (deepest_nonneg (ios_of l) 0) as P1. pose proof (highest_nonneg (ios_of l) 0) as P2.
  rewrite Z.max_r in E1, E2 by assumption.
  exists (deepest (ios_of l) 0), (highest (ios_of l) 0). unfold stack_section. rewrite E1, E2, E3.
  change U16_MAX with (2 ^ 16 - 1). change I16_MAX with (2 ^ 15 - 1).
  assert (NE : needs l (deepest (ios_of l) 0) (deepest (ios_of l) 0 + highest (ios_of l) 0)).
  { rewrite <- (Z.add_0_r (deepest (ios_of l) 0)) at 1. apply needs_of; lia. }
  split; [|split; [exact P1|split; [exact P2|split; [exact NE|split]]]].
  - repeat match goal with |- context [if ?b then _ else _] => replace b with true by lia end. reflexivity.
  - rewrite <- out_height_fold, Z.add_0_r. reflexivity.
  - split; [|split; reflexivity]. apply out_range; auto. lia.
Qed.

Lemma resize_get n b x m q : (m <= n)%nat -> lget (resize n b (repeat x m)) q =
  if (0 <=? q) && (q <? Z.of_nat m) then Some x else if (0 <=? q) && (q <? Z.of_nat n) then Some b else None.
Proof.
  intros H. unfold resize, lget. rewrite repeat_length, firstn_all2 by (rewrite repeat_length; lia).
  destruct (Z.ltb_spec q 0); [replace (0 <=? q) with false by lia; reflexivity|]. replace (0 <=? q) with true by lia. cbn [andb].
  destruct (Z.ltb_spec q (Z.of_nat m)).
  - rewrite nth_error_app1 by (rewrite repeat_length; lia). apply nth_error_repeat'. lia.
  - rewrite nth_error_app2 by (rewrite repeat_length; lia). rewrite repeat_length. destruct (Z.ltb_spec q (Z.of_nat n)).
    + apply nth_error_repeat'. lia.
    + apply nth_error_None. rewrite repeat_length. lia.
Qed.
Lemma resize_len n b x m : (m <= n)%nat -> length (resize n b (repeat x m)) = n.
Proof. intros H. unfold resize. rewrite app_length, firstn_length, !repeat_length. lia. Qed.


Definition kept (t : ditem) (d : idata) : Prop := d = it_d t \/ d = set_noop (it_d t).
Lemma walk_kept l : forall h exit lv ds, dse_walk l h exit = Some (lv, ds) -> Forall2 kept l ds.
Proof.
  induction l as [|t l IH]; intros h exit lv ds E; [cbn in E; injection E as <- <-; constructor|].
  cbn [dse_walk] in E. fold (after t h) in E. destruct (dse_walk l (after t h) exit) as [[lv1 ds1]|] eqn:E1; [|discriminate].
  destruct (dse_step t h lv1) as [[lv2 d2]|] eqn:E2; [|discriminate]. injection E as <- <-. constructor; [|eauto].
  destruct (step_keeps _ _ _ _ _ E2) as [->|(-> & _)]; unfold kept; auto.
Qed.
Lemma block_kept inspect l ds : dse_block inspect l = Some ds -> Forall2 kept l ds.
Proof.
  unfold dse_block. destruct (stack_section (block_summary l)) as [D G].
  destruct (resize _ _ _) as [|b lv]; intros E.
  - injection E as <-. induction l; cbn; constructor; auto. left. reflexivity.
  - destruct (dse_walk l D (b :: lv)) as [[lv1 ds1]|] eqn:E1; [|discriminate]. injection E as <-. eapply walk_kept; eauto.
Qed.
Lemma lowered_arities l : forall ds vs, Forall2 kept l ds -> Forall2 lowered (remark l ds) vs -> Forall ok_unmarked vs -> Forall arity_ok l.
Proof.
  induction l as [|t l IH]; intros ds vs M LO OK; inversion M as [|? d ? ds' M1 M2]; subst; constructor.
  - cbn [remark] in LO. inversion LO as [|? v ? vs' L1 L2]; subst. inversion OK as [|? ? O1 O2]; subst.
    destruct (unmarked_parts v O1) as (_ & _ & BO). pose proof (lowered_arity _ _ L1 BO) as A. unfold arity_ok in *. cbn [with_d it_d it_imm] in A.
    destruct M1 as [->| ->]; exact A.
  - cbn [remark] in LO. inversion LO; subst. inversion OK; subst. eapply IH; eauto.
Qed.

Lemma diverges_halts t v w st : is_diverging (it_d t) = true -> lowered t v -> forall w' st', estep v w st <> Some (ENext w' st').
Proof.
  intros DV (LI & LO & _ & _ & _ & LM) w' st' E. unfold meaning_ok in LM. unfold estep in E.
  destruct (Nat.ltb_spec (length st) (vi_in v)) as [|N]; [discriminate|].
  assert (K : forall f, vi_evm v = EOp f -> (forall w args, snd (f w args) = None) -> False).
  { intros f EV AH. rewrite EV in E. specialize (AH w (firstn (vi_in v) st)). destruct (f w _) as [? [|]]; [discriminate AH|discriminate E]. }
  destruct (f_disabled _ || f_unknown _) eqn:FL; [destruct LM as (_ & f & EV & AH); eauto|].
  assert (SO : shape_of (d_op (it_d t)) (it_imm t) = ShOther).
  { unfold is_diverging in DV. change OP_JUMP with 0x56 in DV. change OP_STOP with 0x00 in DV. change OP_RETURN with 0xf3 in DV.
    change OP_REVERT with 0xfd in DV. change OP_INVALID with 0xfe in DV. change OP_SELFDESTRUCT with 0xff in DV.
    assert (OPS : d_op (it_d t) = 0x56 \/ d_op (it_d t) = 0 \/ d_op (it_d t) = 0xf3 \/ d_op (it_d t) = 0xfd \/ d_op (it_d t) = 0xfe \/ d_op (it_d t) = 0xff) by lia.
    destruct OPS as [->|[->|[->|[->|[->| ->]]]]]; reflexivity. }
  rewrite SO in LM. destruct LM as (_ & f & EV & _ & HA). eauto.
Qed.
Lemma last_halts l : forall ds vs, Forall2 kept l ds -> Forall2 lowered (remark l ds) vs -> last_diverges l = true ->
  forall w st w' st', erun vs w st <> Some (ENext w' st').
Proof.
  induction l as [|t l IH]; intros ds vs M LO LD w st w' st' E; [discriminate|].
  inversion M as [|? d ? ds' M1 M2]; subst. cbn [remark] in LO. inversion LO as [|? v ? vs' L1 L2]; subst. cbn [erun] in E.
  destruct (estep v w st) as [[|w1 st1]|] eqn:ES; try discriminate. destruct l as [|t' l].
  - eapply (diverges_halts (with_d t d) v); [|exact L1|exact ES]. cbn in LD |- *. destruct M1 as [->| ->]; exact LD.
  - eapply IH; eauto.
Qed.
Lemma erun_len l : forall ds vs w st w' st', Forall2 kept l ds -> Forall2 lowered (remark l ds) vs -> Forall ok_unmarked vs ->
  erun vs w st = Some (ENext w' st') -> Z.of_nat (length st') = out_height l (Z.of_nat (length st)).
Proof.
  induction l as [|t l IH]; intros ds vs w st w' st' M LO OK E; inversion M as [|? d ? ds' M1 M2]; subst; cbn [remark] in LO.
  { inversion LO; subst. cbn in E. injection E as <- <-. reflexivity. }
  inversion LO as [|? v ? vs' L1 L2]; subst. inversion OK as [|? ? O1 O2]; subst. cbn [erun] in E.
  destruct (estep v w st) as [[|w1 st1]|] eqn:ES; try discriminate. destruct (unmarked_parts v O1) as (_ & _ & BO).
  pose proof (estep_len _ _ _ _ _ _ L1 BO ES) as LE. rewrite (IH _ _ _ _ _ _ M2 L2 O2 E), LE. cbn [out_height]. f_equal.
  unfold after. cbn [with_d it_d]. destruct M1 as [->| ->]; reflexivity.
Qed.
Lemma out_height_shift l : forall h s, out_height l (s + h) = s + out_height l h.
Proof.
  induction l as [|t l IH]; intros h s; cbn [out_height]; [reflexivity|]. unfold after. rewrite <- IH. f_equal. lia.
Qed.
Lemma none_marked l : forall vs, Forall item_ok l -> Forall2 lowered (remark l (map it_d l)) vs -> Forall (fun v => vi_noop v = false) vs.
Proof.
  induction l as [|t l IH]; intros vs IT LO; cbn [map remark] in LO; inversion LO as [|? v ? vs' L1 L2]; subst; constructor.
  - inversion IT as [|? ? (N & _) _]; subst. destruct L1 as (_ & _ & LN & _). exact (eq_trans LN N).
  - inversion IT; subst. eauto.
Qed.

(** The run of a block: its instructions are sound, ends of sections are where they should be, and the
    positions that are live at its end are all those of the stack it leaves. *)
Lemma block_lives inspect l ds vs nh w st :
  dse_block inspect l = Some ds -> Forall item_ok l -> Forall aligned l -> representable l ->
  Forall2 lowered (remark l ds) vs -> Forall ok_unmarked vs -> heads_ok l vs -> ends_ok (map unmark vs) nh ->
  Forall inst_ok vs /\ ends_ok vs nh /\ exists live live_end, lives vs w st live live_end /\
  forall w' st', erun vs w st = Some (ENext w' st') -> forall p, p < Z.of_nat (length st') -> live_end p.
Proof.
  intros DB IT AL RE LO OK HO EN. pose proof (block_kept _ _ _ DB) as KE. pose proof (lowered_arities _ _ _ KE LO OK) as AR.
  destruct (summary_facts l AR RE) as (D & G & SS & D0 & G0 & NE & OH & OR & _). unfold dse_block in DB. rewrite SS in DB.
  rewrite <- OH in DB. set (td := negb inspect && negb (existsb (fun t => may_suspend (it_d t)) l) && last_diverges l) in DB.
  set (exit := resize _ _ _) in DB. set (s := Z.of_nat (length st) - D).
  assert (X : marks_ok l ds /\ Forall noop_ok vs /\ exists live live_end, lives vs w st live live_end /\
      (td = false -> forall p, p < s + out_height l D -> live_end p)).
  { assert (EX : forall p, lget exit p = if (0 <=? p) && (p <? out_height l D) then Some (negb td) else
        if (0 <=? p) && (p <? D + G) then Some false else None).
    { intros p. unfold exit. rewrite resize_get by lia. rewrite !Z2Nat.id by lia. reflexivity. }
    assert (LE : length exit = Z.to_nat (D + G)) by (unfold exit; rewrite resize_len; lia). clearbody exit.
    destruct exit as [|b0 lv0] eqn:EE.
    - injection DB as <-. split; [apply walk_none|]. pose proof (none_marked l vs IT LO) as NM. split.
      { rewrite Forall_forall in *. intros v Hv E. rewrite (NM v Hv) in E. discriminate. }
      exists (fun _ => True), (fun _ => True). split; [apply lives_all; exact NM|auto].
    - rewrite <- EE in *. destruct (dse_walk l D exit) as [[lv ds1]|] eqn:WK; [|discriminate]. injection DB as ->.
      destruct (walk_lives l D (D + G) exit lv ds vs WK IT AL NE LO OK) as (_ & NO & LV).
      split; [|split; [exact NO|]].
      + eapply walk_marks; eauto. destruct td eqn:TD.
        * left. unfold td in TD. lia.
        * right. intros p P. rewrite EX. replace ((0 <=? p) && (p <? out_height l D)) with true by lia. reflexivity.
      + exists (Lof lv s), (Lof exit s). split; [apply LV; lia|]. intros TD p P.
        destruct (Z.lt_ge_cases p s); [left; assumption|right]. rewrite EX, TD.
        replace ((0 <=? p - s) && (p - s <? out_height l D)) with true by lia. reflexivity. }
  destruct X as (MO & NO & live & live_end & LV & LE).
  assert (IOK : Forall inst_ok vs).
  { rewrite Forall_forall in *. intros v Hv. destruct (unmarked_parts v (OK v Hv)) as (A1 & A2 & A3). exact (conj A1 (conj A2 (conj A3 (NO v Hv)))). }
  assert (EN' : ends_ok vs nh) by (eapply ends_marked; eauto).
  split; [exact IOK|]. split; [exact EN'|]. exists live, live_end. split; [exact LV|]. intros w' st' ER p P.
  assert (TD : td = false).
  { destruct td eqn:TD; [|reflexivity]. exfalso. eapply last_halts; [exact KE|exact LO| |exact ER]. unfold td in TD. lia. }
  assert (LEN : Z.of_nat (length st') = s + out_height l D).
  { rewrite (erun_len _ _ _ _ _ _ _ KE LO OK ER). rewrite <- out_height_shift. f_equal. lia. }
  apply LE; [exact TD|lia].
Qed.
Lemma block_ok inspect l ds vs nh w c st r :
  dse_block inspect l = Some ds -> Forall item_ok l -> Forall aligned l -> representable l ->
  Forall2 lowered (remark l ds) vs -> Forall ok_unmarked vs -> heads_ok l vs -> ends_ok (map unmark vs) nh ->
  fits 0 0 0 vs -> starts_head vs -> in_memory c st -> facts_hold vs w st -> erun vs w st = Some r ->
  match r with
  | EHalt w' => vrun vs nh w c = Some (RHalt w')
  | ENext w' st' => exists c', vrun vs nh w c = Some (RNext w' c') /\ (nh = true -> in_memory c' st') /\
                               (last_exit vs = false -> represents c' st')
  end.
Proof.
  intros DB IT AL RE LO OK HO EN FT SH IM FA ER.
  destruct (block_lives inspect l ds vs nh w st DB IT AL RE LO OK HO EN) as (IOK & EN' & live & live_end & LV & LE).
  destruct vs as [|v vs]; [contradiction|]. cbn in SH.
  assert (PT : at_point (is_head v) live c st /\ (is_head v = false -> in_section c (0, 0, 0))).
  { rewrite SH. split; [|discriminate]. destruct IM as (I1 & I2). split; [exact I1|auto]. }
  pose proof (run_ok (v :: vs) w c st r (0, 0, 0) live live_end nh IOK EN' FA LV FT PT ER) as RR.
  destruct r as [w'|w' st']; [exact RR|]. destruct RR as (c' & V & _ & RR). destruct RR as (R1 & R2); [discriminate|].
  exists c'. split; [exact V|]. specialize (LE w' st' ER). split.
  - intros N. destruct (R1 N) as (Q1 & Q2). split; [exact Q1|]. intros p P _. apply Q2; [exact P|]. apply LE. lia.
  - intros N. destruct (R2 N) as ((Q1 & Q2 & Q3) & _). split; [exact Q1|]. split; [exact Q2|]. intros p P _. apply Q3; [exact P|]. apply LE. lia.
Qed.

(** ** No panic *)
Lemma generic_in lv h inp out snap o : 0 <= h - Z.of_nat inp -> h <= Z.of_nat (length lv) -> h - Z.of_nat inp + Z.of_nat out <= Z.of_nat (length lv) ->
  exists lv', generic_transfer lv h inp out snap o = Some lv' /\ length lv' = length lv.
Proof.
  intros A B C. unfold generic_transfer. destruct (kill_in out lv (h - Z.of_nat inp) A ltac:(lia)) as (l1 & -> & L1).
  destruct (_ && _); [eauto|]. destruct (mark_in inp l1 (h - Z.of_nat inp) snap A ltac:(lia)) as (l2 & -> & L2). exists l2. split; [reflexivity|congruence].
Qed.
Lemma step_total t h lv : item_ok t -> arity_ok t -> fst (d_io (it_d t)) <= h -> h <= Z.of_nat (length lv) -> after t h <= Z.of_nat (length lv) ->
  exists lv' d', dse_step t h lv = Some (lv', d') /\ length lv' = length lv.
Proof.
  intros (NN & IM) (A1 & A2 & A3) H1 H2 H3. unfold dse_step, after in *.
  destruct (f_noop _ || f_disabled _ || f_unknown _) eqn:F1; [eauto|]. rewrite NN in F1. cbn [orb] in F1. specialize (A3 F1).
  pose proof (shape_wf (d_op (it_d t)) (it_imm t) IM) as SW.
  assert (SH : match shape_of (d_op (it_d t)) (it_imm t) with ShDup n => Z.of_nat n <= h | ShSwap a b => Z.of_nat b < h | _ => True end).
  { destruct (shape_of _ _); auto; rewrite A3 in H1; cbn [fst] in H1; lia. }
  assert (SH2 : match shape_of (d_op (it_d t)) (it_imm t) with ShSwap a b => Z.of_nat b < h | _ => True end) by (destruct (shape_of _ _); auto).
  rewrite (transfer_shape lv (d_op (it_d t)) (it_imm t) h (it_inp t) (it_outp t) (it_in t) (it_out t) IM SH).
  rewrite (dead_shape lv (d_op (it_d t)) (it_imm t) h (it_inp t) (it_outp t) IM SH2).
  assert (TR : exists l1, match shape_of (d_op (it_d t)) (it_imm t) with
      | ShDup n => dup_live lv h (Z.of_nat n)
      | ShSwap a b => swap_live lv (h - 1 - Z.of_nat a) (h - 1 - Z.of_nat b)
      | ShBad => Some lv
      | ShPop => lset lv (h - 1) false
      | _ => generic_transfer lv h (it_inp t) (it_outp t) (it_in t) (it_out t)
      end = Some l1 /\ length l1 = length lv).
  { assert (GE : exists l1, generic_transfer lv h (it_inp t) (it_outp t) (it_in t) (it_out t) = Some l1 /\ length l1 = length lv).
    { apply generic_in; unfold it_inp, it_outp; lia. }
    destruct (shape_of _ _) as [n|a b| | | |]; try exact GE; try (rewrite A3 in H1, H3; cbn [fst snd] in H1, H3).
    - apply dup_in; lia.
    - apply swap_in; lia.
    - eauto.
    - apply lset_in; lia. }
  assert (DE : exists x, match shape_of (d_op (it_d t)) (it_imm t) with
      | ShDup n => option_map negb (lget lv h)
      | ShSwap a b => both_dead lv (h - 1 - Z.of_nat a) (h - 1 - Z.of_nat b)
      | ShBad => Some false
      | _ => if (0 <? it_outp t)%nat then Some (outputs_dead lv (h - Z.of_nat (it_inp t)) (it_outp t)) else Some false
      end = Some x).
  { assert (GE : exists x, (if (0 <? it_outp t)%nat then Some (outputs_dead lv (h - Z.of_nat (it_inp t)) (it_outp t)) else Some false) = Some x)
      by (destruct (0 <? it_outp t)%nat; eauto).
    destruct (shape_of _ _) as [n|a b| | | |]; try exact GE; try (rewrite A3 in H1, H3; cbn [fst snd] in H1, H3).
    - destruct (lget_in lv h) as [x ->]; [lia|]. cbn. eauto.
    - pose proof (both_in lv (h - 1 - Z.of_nat a) (h - 1 - Z.of_nat b) ltac:(lia) ltac:(lia)) as B. destruct (both_dead _ _ _); [eauto|congruence].
    - eauto. }
  destruct TR as (l1 & -> & L1). destruct DE as (x & ->).
  assert (FI : exists l2, fill_prefix l1 (h + (snd (d_io (it_d t)) - fst (d_io (it_d t)))) = Some l2 /\ length l2 = length l1) by (apply fill_in; lia).
  destruct FI as (l2 & -> & L2).
  destruct (can_skip _ && _ && _); [destruct x; [eauto|]|]; (destruct (may_suspend _); eexists; eexists; (split; [reflexivity|congruence])).
Qed.
Lemma walk_total l : forall h exit, Forall item_ok l -> Forall arity_ok l -> needs l h (Z.of_nat (length exit)) -> 0 <= h <= Z.of_nat (length exit) ->
  exists lv ds, dse_walk l h exit = Some (lv, ds) /\ length lv = length exit.
Proof.
  induction l as [|t l IH]; intros h exit IT AR NE H; [cbn; eauto|].
  inversion IT; inversion AR; subst. cbn [needs] in NE. destruct NE as (N1 & N2 & N3). cbn [dse_walk]. fold (after t h).
  assert (A : 0 <= after t h). { destruct (ltac:(assumption) : arity_ok t) as (B1 & B2 & _). unfold after. lia. }
  destruct (IH (after t h) exit) as (lv & ds & -> & L); auto.
  destruct (step_total t h lv) as (lv' & d' & -> & L'); auto; try lia. exists lv', (d' :: ds). split; [reflexivity|congruence].
Qed.
Lemma block_total inspect l : Forall item_ok l -> Forall arity_ok l -> representable l -> exists ds, dse_block inspect l = Some ds.
Proof.
  intros IT AR RE. destruct (summary_facts l AR RE) as (D & G & SS & D0 & G0 & NE & OH & OR & _). unfold dse_block. rewrite SS, <- OH.
  set (exit := resize _ _ _). assert (LE : length exit = Z.to_nat (D + G)) by (unfold exit; rewrite resize_len; lia). clearbody exit.
  destruct exit as [|b lv] eqn:EE; [eauto|]. rewrite <- EE in *.
  destruct (walk_total l D exit IT AR) as (lv' & ds & -> & _); [rewrite LE, Z2Nat.id by lia; exact NE|lia|]. eauto.
Qed.
End Run.

(** What a mark implies. *)
Definition markable (d : idata) : Prop :=
  f_disabled (d_flags d) = false /\ f_unknown (d_flags d) = false /\ is_branching d = false /\ ends_here d = false /\ d_op d <> 0x50 /\
  forall im, match shape_of (d_op d) im with ShOther => stack_only (d_op d) | ShCall | ShPop => False | _ => True end.
Lemma step_marked t h lv' lv d' : dse_step t h lv' = Some (lv, d') -> d' = it_d t \/ (d' = set_noop (it_d t) /\ markable (it_d t)).
Proof.
  intros E. destruct (step_keeps _ _ _ _ _ E) as [->|(E1 & E2 & E3)]; [auto|]. unfold dse_step in E.
  destruct (f_noop _ || f_disabled _ || f_unknown _) eqn:F1; [left; now injection E|].
  destruct (can_skip (d_op (it_d t)) && negb (is_branching (it_d t)) && negb (is_diverging (it_d t))) eqn:CS.
  - right. split; [exact E1|]. destruct (can_skip_sound (d_op (it_d t)) 0) as (_ & A & B & C); [lia|]. repeat split; try lia; auto.
    intros im. destruct (can_skip_sound (d_op (it_d t)) im) as (SH & _); [lia|]. destruct (shape_of _ im); auto.
  - left. destruct (transfer_liveness _ _ _ _ _ _ _ _); [|discriminate]. destruct (may_suspend _).
    + destruct (fill_prefix _ _); [|discriminate]. now injection E.
    + now injection E.
Qed.
Lemma walk_marked l : forall h exit lv ds, dse_walk l h exit = Some (lv, ds) ->
  forall k t d, nth_error l k = Some t -> nth_error ds k = Some d -> d = it_d t \/ (d = set_noop (it_d t) /\ markable (it_d t)).
Proof.
  induction l as [|t l IH]; intros h exit lv ds E k x d A B; [destruct k; discriminate|].
  cbn [dse_walk] in E. fold (after t h) in E. destruct (dse_walk l (after t h) exit) as [[lv1 ds1]|] eqn:E1; [|discriminate].
  destruct (dse_step t h lv1) as [[lv2 d2]|] eqn:E2; [|discriminate]. injection E as <- <-. destruct k as [|k]; cbn in A, B.
  - injection A as <-. injection B as <-. eapply step_marked; eauto.
  - eapply IH; eauto.
Qed.
Lemma block_marked inspect l ds : dse_block inspect l = Some ds ->
  forall k t d, nth_error l k = Some t -> nth_error ds k = Some d -> d = it_d t \/ (d = set_noop (it_d t) /\ markable (it_d t)).
Proof.
  unfold dse_block. destruct (stack_section (block_summary l)) as [D G].
  destruct (resize _ _ _) as [|b lv]; intros E.
  - injection E as <-. intros k t d A B. rewrite nth_error_map, A in B. cbn in B. injection B as <-. auto.
  - destruct (dse_walk l D (b :: lv)) as [[lv1 ds1]|] eqn:E1; [|discriminate]. injection E as <-. eapply walk_marked; eauto.
Qed.

(** ** All blocks *)
Lemma write_len ds : forall s l, length (write_at s ds l) = length l.
Proof. induction ds as [|d ds IH]; intros s l; cbn; [reflexivity|]. now rewrite IH, upd_nth_length. Qed.
Lemma write_nth ds : forall s l i, nth_error (write_at s ds l) i =
  if (s <=? i)%nat && (i <? s + length ds)%nat && (i <? length l)%nat then nth_error ds (i - s) else nth_error l i.
Proof.
  induction ds as [|d ds IH]; intros s l i; cbn [write_at length].
  { replace ((s <=? i)%nat && (i <? s + 0)%nat) with false by lia. reflexivity. }
  rewrite IH, upd_nth_length, nth_upd_nth. destruct (Nat.eqb_spec i s) as [->|N].
  - replace ((S s <=? s)%nat && (s <? S s + length ds)%nat && (s <? length l)%nat) with false by lia.
    rewrite Nat.sub_diag. cbn [nth_error]. destruct (nth_error l s) eqn:E.
    + assert (s < length l)%nat by (apply nth_error_Some; congruence). replace ((s <=? s)%nat && (s <? s + S (length ds))%nat && (s <? length l)%nat) with true by lia. reflexivity.
    + apply nth_error_None in E. replace ((s <=? s)%nat && (s <? s + S (length ds))%nat && (s <? length l)%nat) with false by lia. reflexivity.
  - replace ((S s <=? i)%nat && (i <? S s + length ds)%nat && (i <? length l)%nat) with ((s <=? i)%nat && (i <? s + S (length ds))%nat && (i <? length l)%nat) by lia.
    destruct ((s <=? i)%nat && _ && _) eqn:X; [|reflexivity]. replace (i - s)%nat with (S (i - S s)) by lia. reflexivity.
Qed.

Lemma items_spec imm p n : forall s l, items_at imm p (seq s n) = Some l <->
  length l = n /\ forall k, (k < n)%nat -> nth_error l k = item_at imm p (s + k).
Proof.
  induction n as [|n IH]; intros s l; cbn [seq items_at].
  { split; [intros E; injection E as <-; split; [reflexivity|lia]|]. intros (L & _). destruct l; [reflexivity|discriminate]. }
  destruct (item_at imm p s) as [t|] eqn:E.
  - destruct (items_at imm p (seq (S s) n)) as [ts|] eqn:E2.
    + destruct (proj1 (IH (S s) ts) E2) as (L & H). split.
      * intros X. injection X as <-. split; [cbn; lia|]. intros [|k] K; cbn [nth_error]; [rewrite Nat.add_0_r; auto|].
        rewrite H by lia. f_equal. lia.
      * intros (L1 & H1). destruct l as [|t1 l1]; [discriminate|]. f_equal. f_equal.
        -- specialize (H1 0%nat ltac:(lia)). rewrite Nat.add_0_r, E in H1. cbn in H1. congruence.
        -- assert (X : items_at imm p (seq (S s) n) = Some l1); [|congruence].
           apply (proj2 (IH (S s) l1)). cbn in L1. split; [lia|]. intros k K. specialize (H1 (S k) ltac:(lia)). cbn [nth_error] in H1. rewrite H1. f_equal. lia.
    + split; [discriminate|]. intros (L1 & H1). destruct l as [|t1 l1]; [discriminate|]. exfalso.
      assert (X : items_at imm p (seq (S s) n) = Some l1); [|congruence]. apply (proj2 (IH (S s) l1)). cbn in L1. split; [lia|].
      intros k K. specialize (H1 (S k) ltac:(lia)). cbn [nth_error] in H1. rewrite H1. f_equal. lia.
  - split; [discriminate|]. intros (L1 & H1). specialize (H1 0%nat ltac:(lia)). rewrite Nat.add_0_r, E in H1. destruct l; discriminate.
Qed.
Lemma items_total imm p s n : (s + n <= length (b_insts p))%nat -> exists l, items_at imm p (seq s n) = Some l.
Proof.
  revert s. induction n as [|n IH]; intros s H; cbn [seq items_at]; [eauto|]. unfold item_at.
  destruct (nth_error (b_insts p) s) eqn:E; [|apply nth_error_None in E; lia]. destruct (IH (S s)) as (l & ->); [lia|]. eauto.
Qed.
Lemma remark_len l : forall ds, length ds = length l -> length (remark l ds) = length l.
Proof. induction l as [|t l IH]; intros [|d ds] H; try discriminate; cbn; auto. Qed.
Lemma remark_nth l : forall ds k t d, nth_error l k = Some t -> nth_error ds k = Some d -> nth_error (remark l ds) k = Some (with_d t d).
Proof. induction l as [|t0 l IH]; intros [|d0 ds] [|k] t d A B; try discriminate; cbn in *; [congruence|eauto]. Qed.
Lemma kept_len l ds : Forall2 kept l ds -> length ds = length l.
Proof. induction 1; cbn; auto. Qed.
Lemma kept_nth l ds : Forall2 kept l ds -> forall k t d, nth_error l k = Some t -> nth_error ds k = Some d -> kept t d.
Proof. induction 1; intros [|k] t d A B; try discriminate; cbn in *; [congruence|eauto]. Qed.

Definition same_but (p p' : bc) : Prop := exists l, p' = with_insts p l /\ length l = length (b_insts p).
Lemma dse_one_spec inspect imm p b p' : (bk_start b < bk_end b <= length (b_insts p))%nat -> dse_one inspect imm p b = Some p' ->
  same_but p p' /\
  (forall i, ~ (bk_start b <= i < bk_end b)%nat -> nth_error (b_insts p') i = nth_error (b_insts p) i) /\
  exists l ds, items_at imm p (blk_insts b) = Some l /\ dse_block inspect l = Some ds /\ items_at imm p' (blk_insts b) = Some (remark l ds).
Proof.
  intros B E. unfold dse_one in E. destruct (items_at imm p (blk_insts b)) as [l|] eqn:EI; [|discriminate].
  destruct (dse_block inspect l) as [ds|] eqn:ED; [|discriminate]. injection E as <-.
  pose proof (block_kept _ _ _ ED) as KE. pose proof (kept_len _ _ KE) as LD.
  unfold blk_insts in EI. destruct (proj1 (items_spec _ _ _ _ _) EI) as (LL & HI).
  split; [eexists; split; [reflexivity|apply write_len]|]. split.
  - intros i H. cbn [with_insts b_insts]. rewrite write_nth. destruct ((bk_start b <=? i)%nat && (i <? bk_start b + length ds)%nat && _) eqn:X; [lia|reflexivity].
  - exists l, ds. split; [reflexivity|]. split; [exact ED|]. unfold blk_insts. apply items_spec. rewrite remark_len by exact LD. split; [exact LL|].
    intros k K. unfold item_at. cbn [with_insts b_insts b_snaps]. rewrite write_nth.
    replace ((bk_start b <=? bk_start b + k)%nat && (bk_start b + k <? bk_start b + length ds)%nat && (bk_start b + k <? length (b_insts p))%nat) with true by lia.
    replace (bk_start b + k - bk_start b)%nat with k by lia. specialize (HI k K). unfold item_at in HI.
    destruct (nth_error (b_insts p) (bk_start b + k)) as [d0|] eqn:E0; [|apply nth_error_None in E0; lia].
    destruct (nth_error ds k) as [d1|] eqn:E1; [|apply nth_error_None in E1; lia]. rewrite (remark_nth _ _ _ _ _ HI E1). reflexivity.
Qed.
Lemma items_ext imm p p' s n : b_snaps p' = b_snaps p -> (forall i, (s <= i < s + n)%nat -> nth_error (b_insts p') i = nth_error (b_insts p) i) ->
  items_at imm p' (seq s n) = items_at imm p (seq s n).
Proof.
  revert s. induction n as [|n IH]; intros s SN H; cbn [seq items_at]; [reflexivity|]. unfold item_at. rewrite SN, H by lia.
  rewrite IH; auto. intros i Hi. apply H. lia.
Qed.
Definition rng (b : blk) : nat * nat := (bk_start b, bk_end b).
Lemma same_refl p p' : same_but p p' -> b_snaps p' = b_snaps p /\ length (b_insts p') = length (b_insts p).
Proof. intros (l & -> & L). auto. Qed.
Lemma dse_blocks_spec inspect imm bs : forall lo p p', wf_ranges (map rng bs) lo (length (b_insts p)) -> dse_blocks inspect imm bs p = Some p' ->
  same_but p p' /\
  (forall i, ~ (exists b, In b bs /\ bk_start b <= i < bk_end b)%nat -> nth_error (b_insts p') i = nth_error (b_insts p) i) /\
  forall b, In b bs -> exists l ds, items_at imm p (blk_insts b) = Some l /\ dse_block inspect l = Some ds /\ items_at imm p' (blk_insts b) = Some (remark l ds).
Proof.
  induction bs as [|b bs IH]; intros lo p p' WF E; cbn [dse_blocks] in E.
  { injection E as <-. split; [exists (b_insts p); destruct p; auto|]. split; [auto|contradiction]. }
  destruct (dse_one inspect imm p b) as [p1|] eqn:E1; [|discriminate]. cbn [map rng wf_ranges] in WF. destruct WF as (W1 & W2 & W3 & W4).
  destruct (dse_one_spec _ _ _ _ _ (conj W2 W3) E1) as (S1 & O1 & l & ds & I1 & D1 & R1).
  destruct (same_refl _ _ S1) as (SN1 & L1). rewrite <- L1 in W4. destruct (IH _ _ _ W4 E) as (S2 & O2 & B2). destruct (same_refl _ _ S2) as (SN2 & L2).
  assert (LO : forall b', In b' bs -> (bk_end b <= bk_start b')%nat).
  { clear - W4. intros b' H. revert W4. generalize (bk_end b) as lo, (length (b_insts p1)) as hi. revert b' H. induction bs as [|x bs IH]; intros b' H lo hi W; [contradiction|].
    cbn [map rng wf_ranges] in W. destruct W as (A1 & A2 & A3 & A4). destruct H as [->|H]; [exact A1|]. specialize (IH b' H _ _ A4). lia. }
  split; [|split].
  - destruct S1 as (l1 & -> & LL1), S2 as (l2 & -> & LL2). exists l2. split; [destruct p; reflexivity|]. cbn in LL2. congruence.
  - intros i H. rewrite O2; [apply O1|].
    + intros X. apply H. exists b. split; [left; reflexivity|exact X].
    + intros (b' & Hb & X). apply H. exists b'. split; [right; exact Hb|exact X].
  - intros b' [<-|H].
    + exists l, ds. split; [exact I1|]. split; [exact D1|]. rewrite <- R1. unfold blk_insts. apply items_ext; [exact SN2|].
      intros i Hi. apply O2. intros (b' & Hb & X). specialize (LO b' Hb). lia.
    + destruct (B2 b' H) as (l' & ds' & I2 & D2 & R2). exists l', ds'. split; [|auto]. rewrite <- I2. symmetry. unfold blk_insts. apply items_ext; [exact SN1|].
      intros i Hi. apply O1. specialize (LO b' H). lia.
Qed.
Lemma dse_blocks_total inspect imm bs : forall lo p, wf_ranges (map rng bs) lo (length (b_insts p)) ->
  (forall b l, In b bs -> items_at imm p (blk_insts b) = Some l -> Forall item_ok l /\ Forall arity_ok l /\ representable l) ->
  exists p', dse_blocks inspect imm bs p = Some p'.
Proof.
  induction bs as [|b bs IH]; intros lo p WF OK; cbn [dse_blocks]; [eauto|].
  cbn [map rng wf_ranges] in WF. destruct WF as (W1 & W2 & W3 & W4).
  assert (X : exists p1, dse_one inspect imm p b = Some p1).
  { unfold dse_one. destruct (items_total imm p (bk_start b) (bk_end b - bk_start b)) as (l & EI); [lia|]. unfold blk_insts in *. rewrite EI.
    destruct (OK b l (or_introl eq_refl) EI) as (A1 & A2 & A3). destruct (block_total inspect l A1 A2 A3) as (ds & ->). eauto. }
  destruct X as (p1 & E1). rewrite E1. destruct (dse_one_spec _ _ _ _ _ (conj W2 W3) E1) as (S1 & O1 & _).
  destruct (same_refl _ _ S1) as (SN1 & L1). rewrite <- L1 in W4. apply (IH _ _ W4).
  assert (LO : forall b', In b' bs -> (bk_end b <= bk_start b')%nat).
  { clear - W4. intros b' H. revert W4. generalize (bk_end b) as lo, (length (b_insts p1)) as hi. revert b' H. induction bs as [|x bs IH]; intros b' H lo hi W; [contradiction|].
    cbn [map rng wf_ranges] in W. destruct W as (A1 & A2 & A3 & A4). destruct H as [->|H]; [exact A1|]. specialize (IH b' H _ _ A4). lia. }
  intros b' l' H EI. apply (OK b' l' (or_intror H)). rewrite <- EI. symmetry. unfold blk_insts. apply items_ext; [exact SN1|].
  intros i Hi. apply O1. specialize (LO b' H). lia.
Qed.
