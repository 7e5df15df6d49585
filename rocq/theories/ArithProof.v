From Verif Require Import ArithSpec ArithModel.
From Coq Require Import ZifyBool Zpow_facts.
Open Scope Z_scope.

Lemma pow_consts : 1 < 2 ^ 256 /\ 256 < 2 ^ 256 /\ 512 < 2 ^ 256 /\ 256 < 2 ^ 64 - 1 /\ 2 ^ 1 = 2 /\ 2 ^ 8 = 256 /\
  2 ^ 256 = 2 * 2 ^ 255 /\ 0 < 2 ^ 255.
Proof. vm_compute. repeat split; reflexivity. Qed.
Lemma signed_max : signed MAXW = -1.
Proof. reflexivity. Qed.
Lemma signed_min : signed INT_MIN = - 2 ^ 255.
Proof. reflexivity. Qed.
Lemma signed_zero : signed 0 = 0.
Proof. reflexivity. Qed.
Lemma signed_one : signed 1 = 1.
Proof. reflexivity. Qed.
Lemma maxw_neq0 : (MAXW =? 0) = false. Proof. reflexivity. Qed.
Lemma intmin_neq0 : (INT_MIN =? 0) = false. Proof. reflexivity. Qed.

Local Opaque Z.pow.

Lemma W_eq : W = 2 ^ 256. Proof. reflexivity. Qed.
Lemma pow_split a b : 0 <= a -> 0 <= b -> 2 ^ (a + b) = 2 ^ a * 2 ^ b.
Proof. apply Z.pow_add_r. Qed.
Lemma pow_pos a : 0 <= a -> 0 < 2 ^ a.
Proof. intros. apply Z.pow_pos_nonneg; lia. Qed.
Lemma pow_le a b : 0 <= a <= b -> 2 ^ a <= 2 ^ b.
Proof. intros. apply Z.pow_le_mono_r; lia. Qed.
Lemma pow255 : 2 ^ 256 = 2 * 2 ^ 255.
Proof. rewrite <- Z.pow_succ_r by lia. reflexivity. Qed.

Lemma signed_range x : is_word x -> - 2 ^ 255 <= signed x < 2 ^ 255.
Proof. unfold is_word, signed, W. rewrite pow255. intros H. destruct (x <? 2 ^ 255) eqn:E; lia. Qed.

Lemma word_signed x : is_word x -> word (signed x) = x.
Proof.
  unfold is_word, word, signed, W. intros H. destruct (x <? 2 ^ 255).
  - apply Z.mod_small; lia.
  - replace (x - 2 ^ 256) with (x + (-1) * 2 ^ 256) by lia. rewrite Z.mod_add by lia. apply Z.mod_small; lia.
Qed.

(** [x mod W] for small negative x. *)
Lemma word_neg x : 0 < x <= 2 ^ 256 -> word (- x) = 2 ^ 256 - x.
Proof.
  intros H. unfold word, W. replace (- x) with ((2 ^ 256 - x) + (-1) * 2 ^ 256) by lia.
  rewrite Z.mod_add by lia. apply Z.mod_small; lia.
Qed.
Lemma word_small x : 0 <= x < 2 ^ 256 -> word x = x.
Proof. intros. unfold word, W. apply Z.mod_small; lia. Qed.

Lemma word_word x : 0 <= word x < 2 ^ 256.
Proof. unfold word, W. apply Z.mod_pos_bound. lia. Qed.

(** ** Bits *)

Lemma ones_shift k : 0 <= k <= 256 -> 2 ^ 256 - 2 ^ k = Z.shiftl (Z.ones (256 - k)) k.
Proof.
  intros H. rewrite Z.shiftl_mul_pow2 by lia. rewrite Z.ones_equiv.
  rewrite Z.mul_pred_l, <- Z.pow_add_r by lia. f_equal. f_equal. lia.
Qed.

Lemma testbit_high_mask k n : 0 <= k <= 256 -> 0 <= n ->
  Z.testbit (2 ^ 256 - 2 ^ k) n = (k <=? n) && (n <? 256).
Proof.
  intros Hk Hn. rewrite ones_shift by lia.
  rewrite Z.shiftl_spec by lia. destruct (k <=? n) eqn:E; cbn [andb].
  - destruct (n <? 256) eqn:E2.
    + apply Z.ones_spec_low; lia.
    + apply Z.ones_spec_high; lia.
  - apply Z.testbit_neg_r. lia.
Qed.

Lemma lor_disjoint a b : Z.land a b = 0 -> Z.lor a b = a + b.
Proof. intros H. rewrite <- Z.lxor_lor by auto. symmetry. apply Z.add_nocarry_lxor; auto. Qed.

Lemma lor_high x k : 0 <= x < 2 ^ 256 -> 0 <= k <= 256 ->
  Z.lor x (2 ^ 256 - 2 ^ k) = (2 ^ 256 - 2 ^ k) + x mod 2 ^ k.
Proof.
  intros Hx Hk. rewrite Z.add_comm. rewrite <- lor_disjoint.
  - apply Z.bits_inj'. intros n Hn. rewrite !Z.lor_spec, testbit_high_mask by lia.
    destruct (Z_lt_le_dec n k).
    + rewrite Z.mod_pow2_bits_low by lia. reflexivity.
    + rewrite Z.mod_pow2_bits_high by lia. cbn [orb].
      destruct (Z_lt_le_dec n 256).
      * replace ((k <=? n) && (n <? 256)) with true by lia. apply orb_true_r.
      * replace ((k <=? n) && (n <? 256)) with false by lia. rewrite orb_false_r.
        destruct (Z.eq_dec x 0) as [->|]; [apply Z.bits_0|].
        apply Z.bits_above_log2; [lia|]. apply Z.log2_lt_pow2; [lia|].
        eapply Z.lt_le_trans; [apply Hx|]. apply pow_le; lia.
  - apply Z.bits_inj'. intros n Hn. rewrite Z.land_spec, testbit_high_mask, Z.bits_0 by lia.
    destruct (Z_lt_le_dec n k).
    + replace (k <=? n) with false by lia. apply andb_false_r.
    + rewrite Z.mod_pow2_bits_high by lia. reflexivity.
Qed.

Lemma lxor_max x : 0 <= x < 2 ^ 256 -> Z.lxor x MAXW = 2 ^ 256 - 1 - x.
Proof.
  intros H. unfold MAXW.
  assert (Hd : Z.land x (Z.lxor x (2 ^ 256 - 1)) = 0).
  { apply Z.bits_inj'. intros n Hn. rewrite Z.land_spec, Z.lxor_spec, Z.bits_0.
    replace (2 ^ 256 - 1) with (Z.ones 256) by (rewrite Z.ones_equiv; lia).
    destruct (Z_lt_le_dec n 256).
    - rewrite Z.ones_spec_low by lia. destruct (Z.testbit x n); reflexivity.
    - rewrite Z.ones_spec_high by lia. replace (Z.testbit x n) with false; [reflexivity|].
      symmetry. destruct (Z.eq_dec x 0) as [->|]; [apply Z.bits_0|].
      apply Z.bits_above_log2; [lia|]. apply Z.log2_lt_pow2; [lia|].
      eapply Z.lt_le_trans; [apply H|]. apply pow_le; lia. }
  assert (Hs : x + Z.lxor x (2 ^ 256 - 1) = 2 ^ 256 - 1).
  { rewrite <- lor_disjoint by auto. apply Z.bits_inj'. intros n Hn. rewrite Z.lor_spec, Z.lxor_spec.
    replace (2 ^ 256 - 1) with (Z.ones 256) by (rewrite Z.ones_equiv; lia).
    destruct (Z_lt_le_dec n 256).
    - rewrite Z.ones_spec_low by lia. destruct (Z.testbit x n); reflexivity.
    - rewrite Z.ones_spec_high by lia. replace (Z.testbit x n) with false; [reflexivity|].
      symmetry. destruct (Z.eq_dec x 0) as [->|]; [apply Z.bits_0|].
      apply Z.bits_above_log2; [lia|]. apply Z.log2_lt_pow2; [lia|].
      eapply Z.lt_le_trans; [apply H|]. apply pow_le; lia. }
  lia.
Qed.

Lemma testbit_div x k : 0 <= k -> Z.testbit x k = ((x / 2 ^ k) mod 2 =? 1).
Proof.
  intros H. rewrite Z.testbit_odd, Z.shiftr_div_pow2 by lia.
  rewrite Zodd_mod. unfold Zeq_bool. rewrite Z.eqb_compare. reflexivity.
Qed.

Lemma mod_succ_bit x k : 0 <= k -> 0 <= x ->
  x mod 2 ^ (k + 1) = x mod 2 ^ k + (if Z.testbit x k then 2 ^ k else 0).
Proof.
  intros Hk Hx. rewrite testbit_div by lia.
  rewrite Z.pow_add_r by lia. replace (2 ^ 1) with 2 by (symmetry; apply pow_consts).
  rewrite Z.rem_mul_r by (pose proof (pow_pos k); lia).
  pose proof (Z.mod_pos_bound (x / 2 ^ k) 2 ltac:(lia)).
  destruct ((x / 2 ^ k) mod 2 =? 1) eqn:E; [lia|].
  replace ((x / 2 ^ k) mod 2) with 0 by lia. lia.
Qed.

Lemma testbit255 x : is_word x -> Z.testbit x 255 = negb (x <? 2 ^ 255).
Proof.
  unfold is_word, W. intros H. rewrite testbit_div by lia. rewrite pow255 in H.
  pose proof (pow_pos 255 ltac:(lia)).
  destruct (x <? 2 ^ 255) eqn:E; cbn [negb].
  - rewrite Z.div_small by lia. reflexivity.
  - replace (x / 2 ^ 255) with 1; [reflexivity|].
    apply (Z.div_unique x (2 ^ 255) 1 (x - 2 ^ 255)); lia.
Qed.

(** ** Signed division *)

Lemma sign_compl_spec x : is_word x ->
  (x = 0 /\ sign_compl x = (Zero, 0)) \/
  (0 < signed x < 2 ^ 255 /\ sign_compl x = (Plus, signed x) /\ signed x = x) \/
  (- 2 ^ 255 <= signed x < 0 /\ sign_compl x = (Minus, - signed x) /\ signed x = x - 2 ^ 256).
Proof.
  unfold is_word, W. intros H. unfold sign_compl, signed, W. rewrite pow255 in *.
  destruct (x =? 0) eqn:E0; [left; split; [lia|reflexivity]|right].
  destruct (x <? 2 ^ 255) eqn:E1; [left|right].
  - split; [lia|]. split; reflexivity.
  - split; [lia|]. split; [|reflexivity]. rewrite Z.mod_small by lia. do 2 f_equal. lia.
Qed.

Lemma i256_div_spec a b : is_word a -> is_word b ->
  i256_div a b = (if b =? 0 then 0 else word (Z.quot (signed a) (signed b))).
Proof.
  intros Ha Hb. unfold i256_div.
  pose proof (pow_pos 255 ltac:(lia)) as Hp.
  assert (Htc : forall d, 0 <= d < 2 ^ 255 -> two_compl d = word (- d)).
  { intros d Hd. unfold two_compl, word, W.
    replace (2 ^ 256 - d) with (- d + 1 * 2 ^ 256) by lia. rewrite Z.mod_add by lia. reflexivity. }
  destruct (sign_compl_spec b Hb) as [[-> ->]|[(Hsb & -> & Eb)|(Hsb & -> & Eb)]]; cbn [is_zero_sign].
  - reflexivity.
  - destruct (b =? 0) eqn:E0; [lia|].
    destruct (sign_compl_spec a Ha) as [[-> ->]|[(Hsa & -> & Ea)|(Hsa & -> & Ea)]]; cbn [is_zero_sign is_minus xorb].
    + destruct ((0 =? 2 ^ 255) && (signed b =? 1)) eqn:E; [lia|].
      rewrite Z.div_0_l, Z.mod_0_l by lia. unfold signed at 1. cbn. reflexivity.
    + destruct ((signed a =? 2 ^ 255) && (signed b =? 1)) eqn:E; [lia|].
      assert (Hq : 0 <= signed a / signed b < 2 ^ 255).
      { split; [apply Z.div_pos; lia|]. apply Z.div_lt_upper_bound; nia. }
      rewrite (Z.mod_small _ (2 ^ 255)) by lia.
      rewrite Z.quot_div_nonneg by lia. symmetry. apply word_small. rewrite pow255; lia.
    + destruct ((- signed a =? 2 ^ 255) && (signed b =? 1)) eqn:E.
      * assert (signed b = 1) as -> by lia. rewrite Z.quot_1_r.
        assert (signed a = - 2 ^ 255) as -> by lia.
        rewrite word_neg by (rewrite pow255; lia). unfold two_compl.
        rewrite Z.mod_small by (rewrite pow255; lia). reflexivity.
      * assert (Hq : 0 <= - signed a / signed b < 2 ^ 255).
        { split; [apply Z.div_pos; lia|]. apply Z.div_lt_upper_bound; nia. }
        rewrite (Z.mod_small _ (2 ^ 255)) by lia. rewrite Htc by lia. f_equal.
        rewrite <- (Z.opp_involutive (signed a)) at 2. rewrite Z.quot_opp_l by lia.
        rewrite Z.quot_div_nonneg by lia. reflexivity.
  - destruct (b =? 0) eqn:E0; [lia|].
    destruct (sign_compl_spec a Ha) as [[-> ->]|[(Hsa & -> & Ea)|(Hsa & -> & Ea)]]; cbn [is_zero_sign is_minus xorb].
    + destruct ((0 =? 2 ^ 255) && (- signed b =? 1)) eqn:E; [lia|].
      rewrite Z.div_0_l, Z.mod_0_l by lia. unfold signed at 1.
      replace (0 <? 2 ^ 255) with true by lia. rewrite Z.quot_0_l by lia. reflexivity.
    + destruct ((signed a =? 2 ^ 255) && (- signed b =? 1)) eqn:E; [lia|].
      assert (Hq : 0 <= signed a / - signed b < 2 ^ 255).
      { split; [apply Z.div_pos; lia|]. apply Z.div_lt_upper_bound; nia. }
      rewrite (Z.mod_small _ (2 ^ 255)) by lia. rewrite Htc by lia. f_equal.
      rewrite <- (Z.opp_involutive (signed b)) at 2. rewrite Z.quot_opp_r by lia.
      rewrite Z.quot_div_nonneg by lia. reflexivity.
    + destruct ((- signed a =? 2 ^ 255) && (- signed b =? 1)) eqn:E.
      * assert (signed b = -1) as -> by lia. assert (signed a = - 2 ^ 255) as -> by lia.
        replace (- 2 ^ 255 ÷ -1) with (2 ^ 255).
        2:{ change (-1) with (- (1)). rewrite Z.quot_opp_opp by lia. rewrite Z.quot_1_r. reflexivity. }
        unfold two_compl. rewrite word_small by (rewrite pow255; lia).
        rewrite Z.mod_small by (rewrite pow255; lia). rewrite pow255. lia.
      * assert (Hq : 0 <= - signed a / - signed b < 2 ^ 255).
        { split; [apply Z.div_pos; lia|]. apply Z.div_lt_upper_bound; nia. }
        rewrite (Z.mod_small _ (2 ^ 255)) by lia.
        rewrite <- (Z.quot_opp_opp (signed a) (signed b)) by lia.
        rewrite Z.quot_div_nonneg by lia. symmetry. apply word_small. rewrite pow255; lia.
Qed.

Lemma i256_mod_spec a b : is_word a -> is_word b ->
  i256_mod a b = (if b =? 0 then 0 else word (Z.rem (signed a) (signed b))).
Proof.
  intros Ha Hb. unfold i256_mod.
  pose proof (pow_pos 255 ltac:(lia)) as Hp.
  assert (Htc : forall d, 0 <= d < 2 ^ 255 -> two_compl d = word (- d)).
  { intros d Hd. unfold two_compl, word, W.
    replace (2 ^ 256 - d) with (- d + 1 * 2 ^ 256) by lia. rewrite Z.mod_add by lia. reflexivity. }
  destruct (sign_compl_spec a Ha) as [[-> ->]|[(Hsa & -> & Ea)|(Hsa & -> & Ea)]]; cbn [is_zero_sign].
  - destruct (b =? 0) eqn:E0; [reflexivity|].
    unfold signed at 1. replace (0 <? 2 ^ 255) with true by lia.
    rewrite Z.rem_0_l; [reflexivity|].
    destruct (sign_compl_spec b Hb) as [[? _]|[(? & _)|(? & _)]]; lia.
  - destruct (sign_compl_spec b Hb) as [[-> ->]|[(Hsb & -> & Eb)|(Hsb & -> & Eb)]]; cbn [is_zero_sign is_minus].
    + reflexivity.
    + destruct (b =? 0) eqn:E0; [lia|].
      pose proof (Z.mod_pos_bound (signed a) (signed b) ltac:(lia)).
      rewrite (Z.mod_small _ (2 ^ 255)) by lia. rewrite Z.rem_mod_nonneg by lia.
      symmetry; apply word_small. rewrite pow255; lia.
    + destruct (b =? 0) eqn:E0; [lia|].
      pose proof (Z.mod_pos_bound (signed a) (- signed b) ltac:(lia)).
      rewrite (Z.mod_small _ (2 ^ 255)) by lia.
      rewrite <- (Z.opp_involutive (signed b)) at 2. rewrite Z.rem_opp_r by lia.
      rewrite Z.rem_mod_nonneg by lia. symmetry; apply word_small. rewrite pow255; lia.
  - destruct (sign_compl_spec b Hb) as [[-> ->]|[(Hsb & -> & Eb)|(Hsb & -> & Eb)]]; cbn [is_zero_sign is_minus].
    + reflexivity.
    + destruct (b =? 0) eqn:E0; [lia|].
      pose proof (Z.mod_pos_bound (- signed a) (signed b) ltac:(lia)).
      rewrite (Z.mod_small _ (2 ^ 255)) by lia. rewrite Htc by lia. f_equal.
      rewrite <- (Z.opp_involutive (signed a)) at 2. rewrite Z.rem_opp_l by lia.
      rewrite Z.rem_mod_nonneg by lia. reflexivity.
    + destruct (b =? 0) eqn:E0; [lia|].
      pose proof (Z.mod_pos_bound (- signed a) (- signed b) ltac:(lia)).
      rewrite (Z.mod_small _ (2 ^ 255)) by lia. rewrite Htc by lia. f_equal.
      rewrite <- (Z.opp_involutive (signed a)) at 2. rewrite <- (Z.opp_involutive (signed b)) at 2.
      rewrite Z.rem_opp_l, Z.rem_opp_r by lia. rewrite Z.rem_mod_nonneg by lia. reflexivity.
Qed.

Lemma i256_cmp_spec a b : is_word a -> is_word b -> i256_cmp a b = (signed a ?= signed b).
Proof.
  intros Ha Hb. unfold i256_cmp.
  destruct (sign_compl_spec a Ha) as [[Ea Ca]|[(Hsa & Ca & Ea)|(Hsa & Ca & Ea)]]; rewrite Ca;
  destruct (sign_compl_spec b Hb) as [[Eb Cb]|[(Hsb & Cb & Eb)|(Hsb & Cb & Eb)]]; rewrite Cb;
  cbn [fst sign_rank].
  all: try (assert (Sa : signed a = 0) by (subst a; reflexivity)).
  all: try (assert (Sb : signed b = 0) by (subst b; reflexivity)).
  all: symmetry; cbn.
  all: try (rewrite Z.compare_lt_iff; lia); try (rewrite Z.compare_gt_iff; lia).
  - subst. rewrite Sa. reflexivity.
  - rewrite Ea, Eb. reflexivity.
  - rewrite Ea, Eb. destruct (a - 2 ^ 256 ?= b - 2 ^ 256) eqn:E; symmetry.
    + apply Z.compare_eq in E. apply Z.compare_eq_iff. lia.
    + rewrite Z.compare_lt_iff in E. rewrite Z.compare_lt_iff. lia.
    + rewrite Z.compare_gt_iff in E. rewrite Z.compare_gt_iff. lia.
Qed.

(** ** Exponentiation *)

Lemma wpow_pos_spec e : forall base, wpow_pos base e = (base ^ Zpos e) mod 2 ^ 256.
Proof.
  induction e as [e IH|e IH|]; intros base; cbn [wpow_pos].
  - rewrite IH. rewrite (Pos2Z.inj_xI e). rewrite Z.pow_add_r, Z.pow_mul_r, Z.pow_1_r by lia.
    rewrite Z.pow_2_r. rewrite <- Zpower_mod by lia.
    rewrite Z.mul_mod_idemp_r by lia. f_equal. ring.
  - rewrite IH. rewrite (Pos2Z.inj_xO e). rewrite Z.pow_mul_r by lia. rewrite Z.pow_2_r.
    rewrite <- Zpower_mod by lia. reflexivity.
  - rewrite Z.pow_1_r. reflexivity.
Qed.

Lemma wpow_spec base e : 0 <= e -> wpow base e = word (base ^ e).
Proof.
  intros He. destruct e as [|p|p]; [|apply wpow_pos_spec|lia].
  rewrite Z.pow_0_r. cbn [wpow]. symmetry. apply word_small. split; [lia|apply pow_consts].
Qed.

(** ** Shifts *)

Lemma shl_big x s : 256 <= s -> word (x * 2 ^ s) = 0.
Proof.
  intros H. unfold word, W. replace s with ((s - 256) + 256) by lia.
  rewrite Z.pow_add_r by lia. rewrite Z.mul_assoc. apply Z.mod_mul. lia.
Qed.
Lemma shr_big x s : is_word x -> 256 <= s -> x / 2 ^ s = 0.
Proof.
  unfold is_word, W. intros Hx H. apply Z.div_small. split; [lia|].
  eapply Z.lt_le_trans; [apply Hx|]. apply pow_le; lia.
Qed.
Lemma sar_big x s : is_word x -> 256 <= s ->
  word (signed x / 2 ^ s) = if x <? 2 ^ 255 then 0 else MAXW.
Proof.
  intros Hx H. pose proof (signed_range x Hx) as Hs. unfold signed in *.
  pose proof (pow_le 255 s ltac:(lia)). pose proof Hx as Hx'. unfold is_word in Hx'.
  destruct (x <? 2 ^ 255) eqn:E.
  - rewrite Z.div_small by lia. apply word_small. lia.
  - unfold is_word in Hx. replace ((x - W) / 2 ^ s) with (- (1)).
    + rewrite word_neg; [reflexivity|]. rewrite pow255. pose proof (pow_pos 255). lia.
    + apply (Z.div_unique (x - W) (2 ^ s) (-1) (x - W + 2 ^ s)); lia.
Qed.

Lemma arithmetic_shr_spec x s : is_word x -> 0 <= s < 256 ->
  arithmetic_shr x s = word (signed x / 2 ^ s).
Proof.
  intros Hx Hs. unfold arithmetic_shr. rewrite testbit255 by auto. unfold signed.
  pose proof (pow_pos s ltac:(lia)) as Hp.
  pose proof (pow_pos (256 - s) ltac:(lia)) as Hp2.
  assert (Hsplit : 2 ^ 256 = 2 ^ (256 - s) * 2 ^ s) by (rewrite <- Z.pow_add_r by lia; f_equal; lia).
  unfold is_word, W in Hx.
  assert (Hq : 0 <= x / 2 ^ s < 2 ^ (256 - s)).
  { split; [apply Z.div_pos; lia|]. apply Z.div_lt_upper_bound; nia. }
  pose proof (pow_le (256 - s) 256 ltac:(lia)).
  destruct (x <? 2 ^ 255) eqn:E; cbn [negb].
  - symmetry. apply word_small. lia.
  - replace ((MAXW * 2 ^ (256 - s)) mod 2 ^ 256) with (2 ^ 256 - 2 ^ (256 - s)).
    2:{ unfold MAXW. rewrite Z.mul_sub_distr_r, Z.mul_1_l.
        replace (2 ^ 256 * 2 ^ (256 - s) - 2 ^ (256 - s))
          with ((2 ^ 256 - 2 ^ (256 - s)) + (2 ^ (256 - s) - 1) * 2 ^ 256) by ring.
        rewrite Z.mod_add by lia. symmetry. apply Z.mod_small. lia. }
    rewrite lor_high by lia. rewrite Z.mod_small by lia.
    unfold W. rewrite Hsplit at 2. replace (x - 2 ^ (256 - s) * 2 ^ s) with (x + (- 2 ^ (256 - s)) * 2 ^ s) by ring.
    rewrite Z.div_add by lia. unfold word, W.
    replace (x / 2 ^ s + - 2 ^ (256 - s)) with ((2 ^ 256 - 2 ^ (256 - s) + x / 2 ^ s) + (-1) * 2 ^ 256) by ring.
    rewrite Z.mod_add by lia. symmetry. apply Z.mod_small. lia.
Qed.

(** ** SIGNEXTEND *)

Lemma sign_extend_bits k x : is_word x -> 0 <= k < 31 ->
  sign_extend k x =
  let bi := 8 * k + 7 in
  if Z.testbit x bi then 2 ^ 256 - 2 ^ bi + x mod 2 ^ bi else x mod 2 ^ bi.
Proof.
  intros Hx Hk. unfold sign_extend. destruct (31 <=? k) eqn:E; [lia|]. cbn zeta.
  set (bi := 8 * k + 7). replace (8 * (k + 1)) with (bi + 1) by lia.
  replace (bi + 1 - 1) with bi by lia.
  unfold is_word in Hx.
  rewrite mod_succ_bit by lia.
  pose proof (pow_pos bi ltac:(lia)) as Hp.
  pose proof (Z.mod_pos_bound x (2 ^ bi) Hp) as Hm.
  pose proof (Z.pow_lt_mono_r 2 bi 256 ltac:(lia) ltac:(lia) ltac:(lia)) as Hlt.
  assert (Hs : 2 ^ (bi + 1) = 2 * 2 ^ bi) by (rewrite Z.pow_add_r by lia; rewrite Z.pow_1_r; lia).
  destruct (Z.testbit x bi).
  - destruct (x mod 2 ^ bi + 2 ^ bi <? 2 ^ bi) eqn:E2; [lia|]. rewrite Hs.
    replace (x mod 2 ^ bi + 2 ^ bi - 2 * 2 ^ bi) with (- (2 ^ bi - x mod 2 ^ bi)) by lia.
    rewrite word_neg by lia. lia.
  - rewrite Z.add_0_r. destruct (x mod 2 ^ bi <? 2 ^ bi) eqn:E2; [|lia]. apply word_small. lia.
Qed.

(** ** C05 *)

Lemma fold2_spec o a b r : is_word a -> is_word b -> fold2 o a b = Some r ->
  evm_arith o [a; b] = Some r.
Proof.
  intros Ha Hb. pose proof Ha as Ha'. pose proof Hb as Hb'. unfold is_word in Ha', Hb'.
  assert (H64 : 256 < 2 ^ 64 - 1) by apply pow_consts.
  destruct o; cbn [fold2 evm_arith]; intros H; try discriminate; try exact H;
    (rewrite <- H; clear H r); f_equal.
  - destruct (b =? 0); reflexivity.
  - symmetry. apply i256_div_spec; auto.
  - destruct (b =? 0); reflexivity.
  - symmetry. apply i256_mod_spec; auto.
  - symmetry. apply wpow_spec; lia.
  - destruct (a <? 31) eqn:E.
    + rewrite sign_extend_bits by (auto; lia). cbn zeta.
      pose proof (pow_pos (8 * a + 7) ltac:(lia)).
      pose proof (pow_le (8 * a + 7) 256 ltac:(lia)).
      destruct (Z.testbit b (8 * a + 7)).
      * rewrite lxor_max by lia.
        replace (2 ^ 256 - 1 - (2 ^ (8 * a + 7) - 1)) with (2 ^ 256 - 2 ^ (8 * a + 7)) by lia.
        rewrite lor_high by (try exact Hb'; lia). reflexivity.
      * replace (2 ^ (8 * a + 7) - 1) with (Z.ones (8 * a + 7)) by (rewrite Z.ones_equiv; lia).
        rewrite Z.land_ones by lia. reflexivity.
    + unfold sign_extend. destruct (31 <=? a) eqn:E2; [reflexivity|lia].
  - unfold flag, bool_word. replace (a >? b) with (b <? a) by lia. reflexivity.
  - rewrite i256_cmp_spec by auto. unfold flag, bool_word.
    destruct (signed a <? signed b) eqn:E; destruct (signed a ?= signed b) eqn:C; try reflexivity.
    + apply Z.compare_eq in C. lia.
    + rewrite Z.compare_gt_iff in C. lia.
    + rewrite Z.compare_lt_iff in C. lia.
  - rewrite i256_cmp_spec by auto. unfold flag, bool_word.
    destruct (signed b <? signed a) eqn:E; destruct (signed a ?= signed b) eqn:C; try reflexivity.
    + apply Z.compare_eq in C. lia.
    + rewrite Z.compare_lt_iff in C. lia.
    + rewrite Z.compare_gt_iff in C. lia.
  - unfold byte_of, saturating_to_usize.
    destruct (Z.min a (2 ^ 64 - 1) <? 32) eqn:E; destruct (32 <=? a) eqn:E2; try lia.
    rewrite Z.min_l by lia. rewrite Z.shiftr_div_pow2 by lia.
    change 255 with (Z.ones 8). rewrite Z.land_ones by lia.
    rewrite Z.pow_mul_r by lia. replace (2 ^ 8) with 256 by (symmetry; apply pow_consts). reflexivity.
  - unfold saturating_to_usize. destruct (Z.min a (2 ^ 64 - 1) <? 256) eqn:E.
    + rewrite Z.min_l by lia. rewrite Z.shiftl_mul_pow2 by lia. reflexivity.
    + apply shl_big. lia.
  - unfold saturating_to_usize. destruct (Z.min a (2 ^ 64 - 1) <? 256) eqn:E.
    + rewrite Z.min_l by lia. rewrite Z.shiftr_div_pow2 by lia. reflexivity.
    + apply shr_big; auto. lia.
  - unfold saturating_to_usize. destruct (Z.min a (2 ^ 64 - 1) <? 256) eqn:E.
    + rewrite Z.min_l by lia. symmetry. apply arithmetic_shr_spec; auto. lia.
    + rewrite sar_big by (auto; lia). rewrite testbit255 by auto. destruct (b <? 2 ^ 255); reflexivity.
Qed.

Lemma fold1_spec o a r : is_word a -> fold1 o a = Some r -> evm_arith o [a] = Some r.
Proof.
  intros Ha. unfold is_word in Ha.
  destruct o; cbn [fold1 evm_arith]; intros H; try discriminate; try exact H; rewrite <- H; f_equal.
  - symmetry. apply lxor_max. exact Ha.
  - unfold clz, leading_zeros. destruct (a =? 0); lia.
Qed.

Lemma fold3_spec o a b n r : fold3 o a b n = Some r -> evm_arith o [a; b; n] = Some r.
Proof. destruct o; cbn; intros H; try discriminate; exact H. Qed.

Definition ok_input (v : option Z) : Prop := match v with Some x => is_word x | None => True end.

Lemma try_const_fold_spec op pc code_len inputs r :
  Forall ok_input inputs ->
  try_const_fold op pc code_len inputs = Some r ->
  (op = 0x38 /\ r = code_len) \/ (op = 0x58 /\ r = pc) \/
  exists o vs, op = aop_code o /\ map Some vs = inputs /\ evm_arith o (rev vs) = Some r.
Proof.
  intros Hin. unfold try_const_fold.
  destruct (op =? OP_CODESIZE) eqn:E1; [intros H; inversion H; left; unfold OP_CODESIZE in *; lia|].
  destruct (op =? OP_PC') eqn:E2; [intros H; inversion H; right; left; unfold OP_PC' in *; lia|].
  destruct (aop_of_code op) as [o|] eqn:Eo; [|discriminate].
  assert (Hop : op = aop_code o) by (apply find_some in Eo as [_ Eo]; lia).
  intros H. right; right. exists o.
  assert (H1 : (exists a, inputs = [Some a] /\ fold1 o a = Some r) \/
               (exists a b, inputs = [Some b; Some a] /\ fold2 o a b = Some r) \/
               (exists a b n, inputs = [Some n; Some b; Some a] /\ fold3 o a b n = Some r)).
  { destruct inputs as [|[x|] [|[y|] [|[z|] [|w rest]]]]; destruct o; try discriminate H; eauto 10. }
  destruct H1 as [(a & -> & Hf)|[(a & b & -> & Hf)|(a & b & n & -> & Hf)]].
  - exists [a]. inversion Hin; subst. repeat split; auto. apply fold1_spec; auto.
  - exists [b; a]. inversion Hin as [|? ? Hb H2]; subst. inversion H2; subst. repeat split; auto.
    apply fold2_spec; auto.
  - exists [n; b; a]. split; [auto|]. split; [auto|]. apply fold3_spec; auto.
Qed.

Lemma try_const_fold_complete op pc code_len inputs o vs :
  op = aop_code o -> inputs = map Some vs ->
  evm_arith o (rev vs) <> None -> try_const_fold op pc code_len inputs <> None.
Proof.
  intros -> ->. unfold try_const_fold.
  assert (Ho : aop_of_code (aop_code o) = Some o) by (destruct o; reflexivity).
  assert (aop_code o =? OP_CODESIZE = false) as -> by (destruct o; reflexivity).
  assert (aop_code o =? OP_PC' = false) as -> by (destruct o; reflexivity).
  rewrite Ho.
  destruct vs as [|x [|y [|z [|w vs]]]]; cbn [rev map app].
  5:{ intros H. exfalso. apply H.
      assert (Hl : (4 <= length ((((rev vs ++ [w]) ++ [z]) ++ [y]) ++ [x]))%nat) by (rewrite !app_length; cbn; lia).
      destruct ((((rev vs ++ [w]) ++ [z]) ++ [y]) ++ [x]) as [|? [|? [|? [|? ?]]]]; cbn in Hl; try lia.
      destruct o; reflexivity. }
  all: destruct o; cbn; intros H1 H2; try discriminate; try (apply H1; reflexivity).
Qed.

Lemma const_fold_gas_spec op pc code_len inputs r :
  try_const_fold op pc code_len inputs = Some r -> const_fold_gas op inputs <> None.
Proof.
  unfold try_const_fold, const_fold_gas.
  destruct (op =? OP_CODESIZE); [cbn; discriminate|].
  destruct (op =? OP_PC'); [cbn; discriminate|]. cbn [orb].
  destruct (aop_of_code op) as [o|]; [|discriminate].
  destruct o; try discriminate.
  destruct inputs as [|[v|] ?]; discriminate.
Qed.

(** ** C21 *)

Lemma inline_spec o e args r : Forall is_word args ->
  translate_inline o = Some e -> evm_arith o args = Some r -> ieval args e = Val r.
Proof.
  intros Hw He Hr.
  assert (H1 : (exists a, args = [a]) \/ (exists a b, args = [a; b])).
  { destruct args as [|a [|b [|c [|d rest]]]]; destruct o; try discriminate Hr; try discriminate He; eauto. }
  assert (Hdisp : forall x s, is_word x -> 0 <= s ->
            ieval [s; x] (IBin IShl (IArg 1) (IArg 0)) = (if s >=? 256 then Poison else Val (word (x * 2 ^ s)))) by reflexivity.
  destruct H1 as [(a & ->)|(a & b & ->)].
  - inversion Hw as [|? ? Ha _]; subst. pose proof Ha as Ha'. unfold is_word in Ha'.
    destruct o; try discriminate Hr; inversion He; subst e; inversion Hr; subst r; cbn [ieval nth_error lift1 lift2]; f_equal.
    + apply lxor_max. exact Ha'.
    + unfold clz, leading_zeros. destruct (a =? 0); lia.
  - inversion Hw as [|? ? Ha Hw2]; subst. inversion Hw2 as [|? ? Hb _]; subst.
    pose proof Ha as Ha'. pose proof Hb as Hb'. unfold is_word in Ha', Hb'.
    destruct o; try discriminate Hr; try discriminate He; inversion He; subst e; inversion Hr; subst r; clear He Hr.
    all: cbn [ieval nth_error lift1 lift2 bin_eval divides shift_lowering cmp_eval]; try reflexivity.
    + (* SIGNEXTEND *)
      unfold bool_word. destruct (a <? 31) eqn:E; cbn [Z.eqb].
      2:{ assert (sign_extend a b = b) as ->.
          { unfold sign_extend. destruct (31 <=? a) eqn:E2; [reflexivity|lia]. }
          destruct ((248 - (a * 8) mod 2 ^ 256) mod 2 ^ 256 >=? 256); [reflexivity|].
          cbn [lift2 bin_eval]. destruct ((248 - (a * 8) mod 2 ^ 256) mod 2 ^ 256 >=? 256); reflexivity. }
      assert (H9 : 512 < 2 ^ 256) by apply pow_consts.
      rewrite (Z.mod_small (a * 8)) by lia. rewrite (Z.mod_small (248 - a * 8)) by lia.
      destruct (248 - a * 8 >=? 256) eqn:E2; [lia|]. cbn [lift2 bin_eval].
      rewrite E2. f_equal.
      rewrite sign_extend_bits by (auto; lia). cbn zeta.
      set (bi := 8 * a + 7). replace (248 - a * 8) with (255 - bi) by lia.
      pose proof (pow_pos bi ltac:(lia)) as Hp1. pose proof (pow_pos (255 - bi) ltac:(lia)) as Hp2.
      assert (Hsp : 2 ^ 255 = 2 ^ bi * 2 ^ (255 - bi)) by (rewrite <- Z.pow_add_r by lia; f_equal; lia).
      assert (Hsp2 : 2 ^ 256 = 2 ^ (bi + 1) * 2 ^ (255 - bi)) by (rewrite <- Z.pow_add_r by lia; f_equal; lia).
      rewrite Hsp2 at 1. rewrite Z.mul_mod_distr_r by (try apply Z.pow_nonzero; lia).
      rewrite mod_succ_bit by lia.
      pose proof (Z.mod_pos_bound b (2 ^ bi) Hp1) as Hm.
      assert (Hb1 : 2 ^ (bi + 1) = 2 * 2 ^ bi) by (rewrite Z.pow_add_r by lia; rewrite Z.pow_1_r; lia).
      unfold signed. destruct (Z.testbit b bi).
      * replace ((b mod 2 ^ bi + 2 ^ bi) * 2 ^ (255 - bi) <? 2 ^ 255) with false by nia.
        unfold W. rewrite Hsp2 at 1. rewrite <- Z.mul_sub_distr_r. rewrite Z.div_mul by lia.
        rewrite Hb1. replace (b mod 2 ^ bi + 2 ^ bi - 2 * 2 ^ bi) with (- (2 ^ bi - b mod 2 ^ bi)) by lia.
        assert (2 ^ bi <= 2 ^ 255) by (apply pow_le; lia).
        pose proof (word_neg (2 ^ bi - b mod 2 ^ bi) ltac:(rewrite pow255; lia)) as Hwn.
        unfold word, W in Hwn. rewrite Hwn. lia.
      * rewrite Z.add_0_r.
        replace (b mod 2 ^ bi * 2 ^ (255 - bi) <? 2 ^ 255) with true by nia.
        rewrite Z.div_mul by lia.
        assert (2 ^ bi <= 2 ^ 255) by (apply pow_le; lia).
        apply Z.mod_small. rewrite pow255. lia.
    + (* GT *) f_equal. unfold bool_word, flag. replace (a >? b) with (b <? a) by lia. reflexivity.
    + (* SGT *) f_equal. unfold bool_word, flag. replace (signed a >? signed b) with (signed b <? signed a) by lia. reflexivity.
    + (* BYTE *)
      unfold bool_word, byte_of. destruct (a <? 32) eqn:E; cbn [Z.eqb].
      2:{ replace (32 <=? a) with true by lia.
          destruct ((248 - (a * 8) mod 2 ^ 256) mod 2 ^ 256 >=? 256); reflexivity. }
      replace (32 <=? a) with false by lia.
      assert (H9 : 512 < 2 ^ 256) by apply pow_consts.
      rewrite (Z.mod_small (a * 8)) by lia. rewrite (Z.mod_small (248 - a * 8)) by lia.
      destruct (248 - a * 8 >=? 256) eqn:E2; [lia|]. cbn [lift2 bin_eval].
      f_equal. change 255 with (Z.ones 8). rewrite Z.land_ones by lia.
      replace (248 - a * 8) with (8 * (31 - a)) by lia.
      rewrite Z.pow_mul_r by lia. replace (2 ^ 8) with 256 by (symmetry; apply pow_consts). reflexivity.
    + (* SHL *)
      unfold bool_word. destruct (a >? 255) eqn:E; destruct (a >=? 256) eqn:E2; try lia; cbn [Z.eqb].
      * rewrite shl_big by lia. reflexivity.
      * reflexivity.
    + unfold bool_word. destruct (a >? 255) eqn:E; destruct (a >=? 256) eqn:E2; try lia; cbn [Z.eqb].
      * rewrite shr_big by (auto; lia). reflexivity.
      * reflexivity.
    + (* SAR *)
      unfold bool_word. destruct (a >? 255) eqn:E; destruct (a >=? 256) eqn:E2; try lia; cbn [Z.eqb].
      * rewrite sar_big by (auto; lia).
        assert (signed b <? signed 0 = negb (b <? 2 ^ 255)) as ->.
        { unfold signed, W. replace (0 <? 2 ^ 255) with true by (pose proof (pow_pos 255); lia).
          rewrite pow255 in *. unfold is_word, W in Hb. rewrite pow255 in Hb. destruct (b <? 2 ^ 255) eqn:E3; lia. }
        destruct (b <? 2 ^ 255); reflexivity.
      * destruct (signed b <? signed 0); reflexivity.
Qed.

Lemma builtin_spec o args r : Forall is_word args ->
  builtin_arith o args = Some r -> evm_arith o args = Some r.
Proof.
  intros Hw H. destruct args as [|a [|b [|c [|d rest]]]]; destruct o; try discriminate H;
    inversion Hw as [|? ? Ha Hw2]; subst; inversion Hw2 as [|? ? Hb Hw3]; subst.
  all: cbn in H |- *; rewrite <- H; f_equal.
  - destruct (b =? 0); reflexivity.
  - symmetry; apply i256_div_spec; auto.
  - destruct (b =? 0); reflexivity.
  - symmetry; apply i256_mod_spec; auto.
  - symmetry; apply wpow_spec. unfold is_word in Hb; lia.
Qed.

Lemma inline_or_builtin_total o args r : evm_arith o args = Some r ->
  (exists e, translate_inline o = Some e) \/ (exists v, builtin_arith o args = Some v).
Proof.
  destruct args as [|a [|b [|c [|d rest]]]]; destruct o; cbn; intros H; try discriminate H; eauto.
Qed.

(** ** C20 *)

Definition agrees (c : option Z) (v : Z) : Prop := match c with Some x => x = v | None => True end.

Lemma is_c_true c v x : is_c c x = true -> agrees c v -> v = x.
Proof. unfold is_c, agrees. destruct c; [|discriminate]. intros. lia. Qed.

Lemma is_pow2_spec d : is_pow2 d = true -> 0 < d /\ d = 2 ^ Z.log2 d.
Proof. unfold is_pow2. intros H. apply andb_true_iff in H as [H1 H2]. split; [lia|]. symmetry. lia. Qed.

Lemma pow_m1_even e : 0 <= e -> word (MAXW ^ e) = if Z.land e 1 =? 0 then 1 else MAXW.
Proof.
  intros He.
  assert (Hm : forall n, 0 <= n -> word (MAXW ^ n) = word ((-1) ^ n)).
  { intros n Hn. unfold word, W. rewrite Zpower_mod by lia. rewrite (Zpower_mod (-1)) by lia.
    f_equal. }
  rewrite Hm by auto. replace (Z.land e 1) with (e mod 2 ^ 1) by (rewrite <- Z.land_ones by lia; reflexivity). replace (2 ^ 1) with 2 by (symmetry; apply pow_consts).
  pose proof (Z.mod_pos_bound e 2 ltac:(lia)).
  assert (Hp : 1 < 2 ^ 256) by apply pow_consts.
  rewrite (Z.div_mod e 2) at 1 by lia.
  pose proof (Z.div_pos e 2 He ltac:(lia)) as Hd.
  rewrite Z.pow_add_r, Z.pow_mul_r by lia. replace ((-1) ^ 2) with 1 by (rewrite Z.pow_2_r; reflexivity). rewrite Z.pow_1_l by lia.
  destruct (e mod 2 =? 0) eqn:E.
  - replace (e mod 2) with 0 by lia. rewrite Z.pow_0_r. apply word_small. lia.
  - replace (e mod 2) with 1 by lia. rewrite Z.pow_1_r. change (1 * -1) with (- (1)).
    rewrite word_neg by lia. reflexivity.
Qed.

Lemma peephole_spec o consts e pays args r :
  Forall is_word args -> Forall2 agrees consts args ->
  try_peephole o consts = Some (e, pays) -> evm_arith o args = Some r -> ieval args e = Val r.
Proof.
  intros Hw Hag Hp Hr.
  assert (Hpw : 1 < 2 ^ 256) by apply pow_consts.
  destruct args as [|a args]; [destruct o; discriminate Hr|].
  destruct args as [|b args].
  { destruct o; try discriminate Hr; inversion Hag as [|c0 ? cs ? H1 H2]; subst; inversion H2; subst; discriminate Hp. }
  inversion Hw as [|? ? Ha Hw2]; subst. inversion Hw2 as [|? ? Hb Hw3]; subst.
  inversion Hag as [|ca ? cs ? Hca H2]; subst. inversion H2 as [|cb ? cs' ? Hcb H3]; subst. clear Hag H2.
  pose proof Ha as Ha'. pose proof Hb as Hb'. unfold is_word, W in Ha', Hb'.
  destruct args as [|n args].
  2:{ inversion H3 as [|cn ? cs'' ? Hcn H4]; subst.
      destruct args as [|? ?]; [|destruct o; discriminate Hr]. inversion H4; subst.
      destruct o; try discriminate Hr; try discriminate Hp; cbn [try_peephole] in Hp; cbn [evm_arith] in Hr;
        inversion Hr; subst r; clear Hr.
      - unfold peephole_addmod, fold_const in Hp.
        destruct (is_c cn 0) eqn:E0; [apply is_c_true with (v := n) in E0; [|auto]; subst n; inversion Hp; reflexivity|].
        destruct (is_c cn 1) eqn:E1; [apply is_c_true with (v := n) in E1; [|auto]; subst n; inversion Hp; cbn [ieval nth_error lift2]; rewrite Z.mod_1_r; reflexivity|].
        cbn [orb] in Hp. destruct (is_c ca 0 && is_c cb 0) eqn:E2; [|discriminate].
        apply andb_true_iff in E2 as [Ea Eb]. apply is_c_true with (v := a) in Ea; [|auto]. apply is_c_true with (v := b) in Eb; [|auto].
        subst. inversion Hp; subst. cbn [ieval nth_error lift2 bin_eval divides]. destruct (n =? 0); [reflexivity|]. rewrite Z.add_0_l, Zmod_0_l. reflexivity.
      - unfold peephole_mulmod, fold_const in Hp.
        destruct (is_c cn 0) eqn:E0; [apply is_c_true with (v := n) in E0; [|auto]; subst n; inversion Hp; reflexivity|].
        destruct (is_c cn 1) eqn:E1; [apply is_c_true with (v := n) in E1; [|auto]; subst n; inversion Hp; cbn [ieval nth_error lift2]; rewrite Z.mod_1_r; reflexivity|].
        cbn [orb] in Hp. destruct (is_c ca 0 || is_c cb 0) eqn:E2; [|discriminate].
        inversion Hp; subst. cbn [ieval nth_error lift2 bin_eval divides].
        apply orb_true_iff in E2 as [Ea|Eb]; [apply is_c_true with (v := a) in Ea; [|auto]|apply is_c_true with (v := b) in Eb; [|auto]]; subst;
          rewrite ?Z.mul_0_l, ?Z.mul_0_r, Zmod_0_l; destruct (n =? 0); reflexivity. }
  inversion H3; subst. clear H3.
  destruct o; try discriminate Hr; try discriminate Hp; cbn [try_peephole] in Hp; cbn [evm_arith] in Hr;
    inversion Hr; subst r; clear Hr.
  - (* DIV *)
    unfold peephole_div, fold_const, pushes in Hp.
    destruct (is_c cb 0) eqn:E0; [apply is_c_true with (v := b) in E0; [|auto]; subst b; inversion Hp; reflexivity|].
    destruct (is_c cb 1) eqn:E1; [apply is_c_true with (v := b) in E1; [|auto]; subst b; inversion Hp; cbn [ieval nth_error lift2]; rewrite Z.div_1_r; reflexivity|].
    assert (Hz : is_c ca 0 = true -> e = IConst 0 -> ieval [a; b] e = Val (if b =? 0 then 0 else a / b)).
    { intros Ec ->. apply is_c_true with (v := a) in Ec; [|auto]. subst a. cbn [ieval nth_error lift2 bin_eval divides]. destruct (b =? 0); [reflexivity|]. rewrite Zdiv_0_l. reflexivity. }
    destruct cb as [d|].
    + cbn in Hcb. subst d. destruct (is_pow2 b) eqn:E2.
      * inversion Hp; subst. cbn [ieval nth_error lift2 bin_eval divides]. destruct (b =? 0) eqn:E3; [|reflexivity]. apply is_pow2_spec in E2. lia.
      * destruct (is_c ca 0) eqn:E3; inversion Hp; subst; auto.
    + destruct (is_c ca 0) eqn:E3; inversion Hp; subst; auto.
  - (* SDIV *)
    unfold peephole_sdiv, fold_const, pushes in Hp.
    destruct (is_c cb 0) eqn:E0; [apply is_c_true with (v := b) in E0; [|auto]; subst b; inversion Hp; reflexivity|].
    destruct (is_c cb 1) eqn:E1.
    { apply is_c_true with (v := b) in E1; [|auto]; subst b; inversion Hp; subst. cbn [ieval nth_error]. rewrite signed_one, Z.quot_1_r.
      cbn [ieval nth_error lift2 bin_eval divides]. rewrite word_signed; auto. }
    destruct (is_c cb MAXW) eqn:E2.
    { apply is_c_true with (v := b) in E2; [|auto]; subst b; inversion Hp; subst. cbn [ieval nth_error lift2 bin_eval].
      rewrite signed_max. rewrite maxw_neq0. cbn iota. f_equal.
      change (-1) with (- (1)). rewrite Z.quot_opp_r, Z.quot_1_r by lia.
      unfold word. rewrite <- (word_signed a Ha) at 1. unfold word. rewrite Zminus_mod_idemp_r. f_equal; lia. }
    destruct (is_c cb INT_MIN) eqn:E3.
    { apply is_c_true with (v := b) in E3; [|auto]; subst b; inversion Hp; subst. cbn [ieval nth_error lift2 cmp_eval].
      rewrite intmin_neq0. cbn iota. f_equal. rewrite signed_min.
      pose proof (signed_range a Ha) as Hs. pose proof (pow_pos 255 ltac:(lia)).
      unfold bool_word. destruct (a =? INT_MIN) eqn:E4.
      - assert (a = INT_MIN) as -> by lia. rewrite signed_min. rewrite Z.quot_same by lia. symmetry. apply word_small. lia.
      - assert (signed a <> - 2 ^ 255).
        { unfold signed, INT_MIN, W in *. rewrite pow255 in *. destruct (a <? 2 ^ 255) eqn:E5; lia. }
        rewrite Z.quot_opp_r by lia.
        assert (Z.quot (signed a) (2 ^ 255) = 0) as ->; [|reflexivity].
        destruct (Z_lt_le_dec (signed a) 0).
        + rewrite <- (Z.opp_involutive (signed a)). rewrite Z.quot_opp_l by lia. rewrite Z.quot_small by lia. reflexivity.
        + rewrite Z.quot_small by lia. reflexivity. }
    destruct (is_c ca 0) eqn:E4; [|discriminate]. apply is_c_true with (v := a) in E4; [|auto]. subst a. inversion Hp; subst. cbn [ieval nth_error lift2 bin_eval divides].
    destruct (b =? 0) eqn:E5; [reflexivity|]. rewrite Z.quot_0_l; [reflexivity|].
    intros Hsb. rewrite <- (word_signed b Hb), Hsb in E5. discriminate E5.
  - (* MOD *)
    unfold peephole_mod, fold_const, pushes in Hp.
    destruct (is_c cb 0) eqn:E0; [apply is_c_true with (v := b) in E0; [|auto]; subst b; inversion Hp; reflexivity|].
    destruct (is_c cb 1) eqn:E1; [apply is_c_true with (v := b) in E1; [|auto]; subst b; inversion Hp; cbn [ieval nth_error lift2]; rewrite Z.mod_1_r; reflexivity|].
    cbn [orb] in Hp.
    assert (Hz : is_c ca 0 = true -> e = IConst 0 -> ieval [a; b] e = Val (if b =? 0 then 0 else a mod b)).
    { intros Ec ->. apply is_c_true with (v := a) in Ec; [|auto]. subst a. cbn [ieval nth_error lift2 bin_eval divides]. destruct (b =? 0); [reflexivity|]. rewrite Zmod_0_l. reflexivity. }
    destruct cb as [d|].
    + cbn in Hcb. subst d. destruct (is_pow2 b) eqn:E2.
      * inversion Hp; subst. cbn [ieval nth_error lift2 bin_eval divides]. destruct (b =? 0) eqn:E3; [|reflexivity]. apply is_pow2_spec in E2. lia.
      * destruct (is_c ca 0) eqn:E3; inversion Hp; subst; auto.
    + destruct (is_c ca 0) eqn:E3; inversion Hp; subst; auto.
  - (* SMOD *)
    unfold peephole_smod, fold_const in Hp.
    destruct (is_c cb 0) eqn:E0; [apply is_c_true with (v := b) in E0; [|auto]; subst b; inversion Hp; reflexivity|].
    destruct (is_c cb 1) eqn:E1; [apply is_c_true with (v := b) in E1; [|auto]; subst b; inversion Hp; cbn [ieval nth_error lift2]; rewrite signed_one, Z.rem_1_r; reflexivity|].
    destruct (is_c cb MAXW) eqn:E2.
    { apply is_c_true with (v := b) in E2; [|auto]; subst b; inversion Hp; subst. cbn [ieval]. rewrite signed_max.
      rewrite maxw_neq0. cbn iota. change (-1) with (- (1)). rewrite Z.rem_opp_r, Z.rem_1_r by lia. reflexivity. }
    cbn [orb] in Hp.
    destruct (is_c ca 0) eqn:E4; [|discriminate]. apply is_c_true with (v := a) in E4; [|auto]. subst a. inversion Hp; subst. cbn [ieval nth_error lift2 bin_eval divides].
    destruct (b =? 0) eqn:E5; [reflexivity|]. rewrite Z.rem_0_l; [reflexivity|].
    intros Hsb. rewrite <- (word_signed b Hb), Hsb in E5. discriminate E5.
  - (* EXP *)
    unfold peephole_exp, fold_const, pushes in Hp. destruct cb as [x|].
    + cbn in Hcb. subst x.
      destruct (b =? 0) eqn:E0; [assert (b = 0) by lia; subst b; inversion Hp; subst; rewrite Z.pow_0_r, word_small by lia; reflexivity|].
      destruct (b =? 1) eqn:E1; [assert (b = 1) by lia; subst b; inversion Hp; subst; rewrite Z.pow_1_r, word_small by lia; reflexivity|].
      destruct (b =? 2) eqn:E2; [assert (b = 2) by lia; subst b; inversion Hp; subst; rewrite Z.pow_2_r; reflexivity|discriminate].
    + destruct ca as [x|]; [|discriminate]. cbn in Hca. subst x.
      destruct (a =? 0) eqn:E0.
      { assert (a = 0) by lia; subst a; inversion Hp; subst. cbn [ieval nth_error lift2 cmp_eval].
        unfold bool_word. destruct (b =? 0) eqn:E1; cbn [Z.eqb].
        - assert (b = 0) as -> by lia. rewrite Z.pow_0_r, word_small by lia. reflexivity.
        - rewrite Z.pow_0_l by lia. reflexivity. }
      destruct (a =? 1) eqn:E1.
      { assert (a = 1) by lia; subst a; inversion Hp; subst. rewrite Z.pow_1_l, word_small by lia. reflexivity. }
      destruct (a =? MAXW) eqn:E2.
      { assert (a = MAXW) by lia; subst a; inversion Hp; subst. cbn [ieval nth_error lift2 cmp_eval bin_eval divides].
        rewrite pow_m1_even by lia. unfold bool_word. destruct (Z.land b 1 =? 0); reflexivity. }
      destruct (is_pow2 a) eqn:E3; [|discriminate].
      apply is_pow2_spec in E3 as [Hpos Ek]. set (k := Z.log2 a) in *.
      assert (Hk0 : 0 <= k) by apply Z.log2_nonneg.
      assert (Hk1 : 1 <= k) by (destruct (Z.eq_dec k 0) as [E|]; [rewrite E, Z.pow_0_r in Ek; lia|lia]).
      assert (Hk2 : k < 256) by (unfold k; apply Z.log2_lt_pow2; lia).
      cbn zeta in Hp. apply (f_equal (fun x => match x with Some (e0, _) => e0 | None => IConst 0 end)) in Hp. cbn iota beta in Hp. subst e.
      remember ((256 + k - 1) / k) as th eqn:Eth.
      assert (Hth : forall y, 0 <= y -> (y < th <-> y * k < 256)).
      { intros y Hy. rewrite Eth. pose proof (Z.div_mod (256 + k - 1) k ltac:(lia)) as Hdm.
        pose proof (Z.mod_pos_bound (256 + k - 1) k ltac:(lia)) as Hmb. split; intros Hyk; nia. }
      assert (Hres : word (a ^ b) = if b <? th then (1 * 2 ^ (b * k)) mod 2 ^ 256 else 0).
      { rewrite Ek. rewrite <- Z.pow_mul_r by lia. replace (k * b) with (b * k) by lia.
        destruct (b <? th) eqn:E4; [rewrite Z.mul_1_l; reflexivity|].
        rewrite <- (Z.mul_1_l (2 ^ (b * k))). apply shl_big.
        assert (~ (b * k < 256)) by (rewrite <- Hth by lia; lia). lia. }
      rewrite Hres. clear Hres.
      assert (Hsh : b < th -> b * k < 256) by (intros; apply Hth; lia).
      assert (H512 : 256 < 2 ^ 256) by apply pow_consts.
      destruct (k =? 1) eqn:Ek1; cbn [ieval nth_error lift2 cmp_eval bin_eval divides]; unfold bool_word; destruct (b <? th) eqn:E4; cbn [Z.eqb].
      * assert (Hk : k = 1) by lia. assert (b < 256) by lia.
        destruct (b >=? 256) eqn:E5; [lia|]. rewrite Hk, Z.mul_1_r. reflexivity.
      * destruct (b >=? 256); reflexivity.
      * rewrite (Z.mod_small (b * k)) by nia. destruct (b * k >=? 256) eqn:E5; [lia|]. reflexivity.
      * destruct ((b * k) mod 2 ^ 256 >=? 256); reflexivity.
  - (* SIGNEXTEND *)
    unfold peephole_signextend, pushes in Hp. destruct ca as [x|]; [|discriminate]. cbn in Hca. subst x.
    destruct (a >=? 31) eqn:E; [|discriminate]. inversion Hp; subst. cbn [ieval nth_error lift2 bin_eval divides]. unfold sign_extend.
    destruct (31 <=? a) eqn:E2; [reflexivity|lia].
  - unfold peephole_byte, fold_const in Hp. destruct ca as [x|]; [|discriminate]. cbn in Hca. subst x.
    destruct (a >=? 32) eqn:E; [|discriminate]. inversion Hp; subst. cbn [ieval nth_error lift2 bin_eval divides]. unfold byte_of.
    destruct (32 <=? a) eqn:E2; [reflexivity|lia].
Qed.

Lemma translate_arith_spec o const_out consts args r :
  Forall is_word args -> Forall2 agrees consts args ->
  evm_arith o args = Some r -> agrees const_out r ->
  translate_arith o const_out consts args = Val r.
Proof.
  intros Hw Hag Hr Hco. unfold translate_arith. destruct const_out as [c|]; [cbn in Hco; congruence|].
  destruct (try_peephole o consts) as [[e pays]|] eqn:Hp; [eapply peephole_spec; eauto|].
  destruct (translate_inline o) as [e|] eqn:Hi; [eapply inline_spec; eauto|].
  destruct (inline_or_builtin_total o args r Hr) as [[e He]|[v Hv]]; [congruence|].
  rewrite Hv. apply builtin_spec in Hv; auto. congruence.
Qed.

(** ** C06 *)
Lemma exp_gas_once exp_cost const_base const_exponent const_out base exponent :
  agrees const_base base -> agrees const_exponent exponent -> 0 <= exponent ->
  (const_out <> None -> const_exponent <> None) ->
  exp_static_gas exp_cost const_exponent const_out
  + exp_dynamic_gas exp_cost const_base const_exponent const_out exponent = exp_cost exponent.
Proof.
  intros Hb He Hpos Hout. unfold exp_static_gas, exp_dynamic_gas.
  destruct const_exponent as [e|].
  - cbn in He. subst e. destruct const_out; cbn [orb]; [lia|].
    unfold peephole_exp, fold_const, pushes.
    destruct (exponent =? 0) eqn:E0; [destruct (exponent <=? 2) eqn:E; lia|].
    destruct (exponent =? 1) eqn:E1; [destruct (exponent <=? 2) eqn:E; lia|].
    destruct (exponent =? 2) eqn:E2; destruct (exponent <=? 2) eqn:E; lia.
  - destruct const_out; [destruct Hout; congruence|].
    unfold peephole_exp. destruct const_base as [b|]; [|lia].
    destruct (b =? 0); [lia|]. destruct (b =? 1); [lia|]. destruct (b =? MAXW); [lia|].
    destruct (is_pow2 b); lia.
Qed.
