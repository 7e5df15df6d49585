(** Proofs about words. *)
From Verif Require Import WordModel WordSpec.
Open Scope Z_scope.

Lemma pow256_S n : 256 ^ Z.of_nat (S n) = 256 * 256 ^ Z.of_nat n.
Proof. rewrite Nat2Z.inj_succ, Z.pow_succ_r by lia. reflexivity. Qed.
Lemma le_bytes_length n : forall v, length (le_bytes n v) = n.
Proof. induction n; intros v; cbn; auto. Qed.
Lemma le_bytes_bytes n : forall v, bytes n (le_bytes n v).
Proof.
  intros v. split; [apply le_bytes_length|]. revert v. induction n; intros v; cbn [le_bytes]; constructor; auto. apply Z.mod_pos_bound. lia.
Qed.
Lemma le_val_le_bytes n : forall v, 0 <= v < 256 ^ Z.of_nat n -> le_val (le_bytes n v) = v.
Proof.
  induction n as [|n IH]; intros v V; cbn [le_bytes le_val]; [cbn in V; lia|]. rewrite pow256_S in V.
  rewrite IH; [pose proof (Z.div_mod v 256); lia|]. split; [apply Z.div_pos; lia|]. apply Z.div_lt_upper_bound; lia.
Qed.
Lemma le_val_bound l : Forall (fun b => 0 <= b < 256) l -> 0 <= le_val l < 256 ^ Z.of_nat (length l).
Proof. induction 1 as [|b l B F IH]; cbn [le_val length]; [cbn; lia|]. rewrite pow256_S. lia. Qed.
Lemma le_bytes_le_val l : Forall (fun b => 0 <= b < 256) l -> le_bytes (length l) (le_val l) = l.
Proof.
  induction 1 as [|b l B F IH]; [reflexivity|]. cbn [length le_bytes le_val]. f_equal.
  - rewrite Z.mul_comm, Z_mod_plus_full. apply Z.mod_small. lia.
  - rewrite Z.mul_comm, Z.div_add by lia. rewrite Z.div_small by lia. exact IH.
Qed.
Lemma le_bytes_app a : forall b v, le_bytes (a + b) v = le_bytes a v ++ le_bytes b (v / 256 ^ Z.of_nat a).
Proof.
  induction a as [|a IH]; intros b v; cbn [Nat.add le_bytes app]; [change (256 ^ Z.of_nat 0) with 1; rewrite Z.div_1_r; reflexivity|].
  f_equal. rewrite IH. do 2 f_equal. rewrite pow256_S, Z.div_div by (try lia; apply Z.pow_pos_nonneg; lia). reflexivity.
Qed.
Lemma le_bytes_mod n : forall v, le_bytes n (v mod 256 ^ Z.of_nat n) = le_bytes n v.
Proof.
  induction n as [|n IH]; intros v; [reflexivity|]. cbn [le_bytes]. rewrite pow256_S.
  assert (P : 0 < 256 ^ Z.of_nat n) by (apply Z.pow_pos_nonneg; lia).
  rewrite Z.rem_mul_r by lia. rewrite Z.mul_comm. f_equal.
  - rewrite Z_mod_plus_full, Z.mod_mod by lia. reflexivity.
  - rewrite Z.div_add by lia. rewrite (Z.div_small (v mod 256)) by (apply Z.mod_pos_bound; lia). cbn. apply IH.
Qed.
Lemma le_val_app a b : le_val (a ++ b) = le_val a + 256 ^ Z.of_nat (length a) * le_val b.
Proof. induction a as [|x a IH]; cbn [app le_val length]; [change (256 ^ Z.of_nat 0) with 1; lia|]. rewrite pow256_S, IH. lia. Qed.

Lemma be_number_app a b : be_number (a ++ b) = be_number a * 256 ^ Z.of_nat (length b) + be_number b.
Proof.
  induction a as [|x a IH]; cbn [app be_number]; [lia|]. rewrite IH, app_length, Nat2Z.inj_add, Z.pow_add_r by lia. lia.
Qed.
Lemma le_number_val l : le_number l = le_val l.
Proof.
  unfold le_number. induction l as [|b l IH]; cbn [rev le_val]; [reflexivity|]. rewrite be_number_app, IH. cbn [be_number length]. change (256 ^ Z.of_nat 1) with 256. change (256 ^ Z.of_nat 0) with 1. lia.
Qed.
Lemma be_value_number l : be_value l = be_number l.
Proof.
  unfold be_value. assert (G : forall acc, fold_left (fun acc b => acc * 256 + b) l acc = acc * 256 ^ Z.of_nat (length l) + be_number l).
  { induction l as [|b l IH]; intros acc; cbn [fold_left be_number length]; [change (256 ^ Z.of_nat 0) with 1; lia|]. rewrite IH, pow256_S. lia. }
  rewrite G. lia.
Qed.
Lemma be_number_le l : be_number l = le_val (rev l).
Proof. rewrite <- le_number_val. unfold le_number. rewrite rev_involutive. reflexivity. Qed.

Lemma pow_256 k : 256 ^ k = 2 ^ (8 * k).
Proof. change 256 with (2 ^ 8). destruct (Z.neg_nonneg_cases k); [rewrite !Z.pow_neg_r by lia; reflexivity|]. rewrite Z.pow_mul_r by lia. reflexivity. Qed.
Lemma u256_mem_le u : u256_mem u = le_bytes 32 u.
Proof.
  unfold u256_mem, as_limbs. cbn [map concat]. rewrite app_nil_r.
  change 32%nat with (8 + (8 + (8 + 8)))%nat. rewrite !le_bytes_app. change (256 ^ Z.of_nat 8) with (2 ^ 64).
  rewrite !Z.div_div by lia. change (2 ^ 64 * 2 ^ 64) with (2 ^ 128). change (2 ^ 128 * 2 ^ 64) with (2 ^ 192). change (2 ^ 64) with (256 ^ Z.of_nat 8). rewrite !le_bytes_mod. reflexivity.
Qed.
Lemma u256_of_mem_le w : length w = 32%nat -> u256_of_mem w = le_val w.
Proof.
  intros L. unfold u256_of_mem. do 32 (destruct w as [|? w]; [discriminate L|]). destruct w; [|discriminate L]. cbn [firstn skipn le_val]. lia.
Qed.

(** Both endiannesses at once: a word is its native bytes. *)
Definition native (big : bool) (u : Z) : list Z := if big then rev (le_bytes 32 u) else le_bytes 32 u.
Lemma from_u256_native big u : from_u256 big u = native big u.
Proof. destruct big; [reflexivity|]. apply u256_mem_le. Qed.
Lemma to_u256_native big w : length w = 32%nat -> to_u256 big w = if big then be_number w else le_val w.
Proof. intros L. destruct big; cbn [to_u256]; [apply be_value_number|apply u256_of_mem_le; exact L]. Qed.
Lemma bytes_rev n l : bytes n l -> bytes n (rev l).
Proof. intros [L F]. split; [now rewrite rev_length|]. apply Forall_rev. exact F. Qed.
Lemma W_pow : W = 256 ^ Z.of_nat 32.
Proof. reflexivity. Qed.

Lemma word_roundtrip big u : is_word u -> bytes 32 (from_u256 big u) /\ to_u256 big (from_u256 big u) = u.
Proof.
  intros U. unfold is_word in U. rewrite W_pow in U. rewrite from_u256_native. split.
  - destruct big; cbn [native]; [apply bytes_rev|]; apply le_bytes_bytes.
  - rewrite to_u256_native by (destruct big; cbn [native]; rewrite ?rev_length; apply le_bytes_length).
    destruct big; cbn [native]; [rewrite be_number_le, rev_involutive|]; apply le_val_le_bytes; exact U.
Qed.
Lemma word_back big w : bytes 32 w -> is_word (to_u256 big w) /\ from_u256 big (to_u256 big w) = w.
Proof.
  intros [L F]. rewrite to_u256_native by exact L. rewrite from_u256_native. unfold is_word. rewrite W_pow. destruct big; cbn [native].
  - rewrite be_number_le. pose proof (le_val_bound (rev w) (Forall_rev F)) as B. rewrite rev_length, L in B. split; [exact B|].
    replace 32%nat with (length (rev w)) by (rewrite rev_length; exact L). rewrite le_bytes_le_val by (apply Forall_rev; exact F). apply rev_involutive.
  - pose proof (le_val_bound w F) as B. rewrite L in B. split; [exact B|]. rewrite <- L at 1. apply le_bytes_le_val. exact F.
Qed.
Lemma be_bytes_value big w : length w = 32%nat -> be_number (to_be_bytes big w) = to_u256 big w.
Proof.
  intros L. rewrite to_u256_native by exact L. unfold to_be_bytes, to_be, swap_bytes. destruct big; [reflexivity|]. rewrite be_number_le, rev_involutive. reflexivity.
Qed.
Lemma le_bytes_value big w : length w = 32%nat -> le_number (to_le_bytes big w) = to_u256 big w.
Proof.
  intros L. rewrite to_u256_native by exact L. unfold to_le_bytes, to_le, swap_bytes, le_number. destruct big; [rewrite rev_involutive; reflexivity|]. apply le_number_val.
Qed.
Lemma of_be_bytes_value big b : length b = 32%nat -> to_u256 big (from_be_bytes big b) = be_number b.
Proof.
  intros L. unfold from_be_bytes, from_be, swap_bytes. rewrite to_u256_native by (destruct big; rewrite ?rev_length; exact L). destruct big; [reflexivity|]. symmetry. apply be_number_le.
Qed.
Lemma of_le_bytes_value big b : length b = 32%nat -> to_u256 big (from_le_bytes big b) = le_number b.
Proof.
  intros L. unfold from_le_bytes, from_le, swap_bytes. rewrite to_u256_native by (destruct big; rewrite ?rev_length; exact L). destruct big; [reflexivity|]. symmetry. apply le_number_val.
Qed.
Lemma be_number_bound l : Forall (fun b => 0 <= b < 256) l -> 0 <= be_number l < 256 ^ Z.of_nat (length l).
Proof. intros F. rewrite be_number_le, <- rev_length. apply le_val_bound. apply Forall_rev. exact F. Qed.
Lemma slice_word l : (length l <= 32)%nat -> Forall (fun b => 0 <= b < 256) l -> is_word (be_number l).
Proof.
  intros L F. pose proof (be_number_bound l F) as B. unfold is_word. rewrite W_pow. split; [lia|].
  assert (256 ^ Z.of_nat (length l) <= 256 ^ Z.of_nat 32) by (apply Z.pow_le_mono_r; lia). lia.
Qed.
Lemma address_value big w : bytes 32 w -> bytes 20 (to_address big w) /\ be_number (to_address big w) = to_u256 big w mod 2 ^ 160.
Proof.
  intros [L F]. assert (B : bytes 32 (to_be_bytes big w)) by (unfold to_be_bytes, to_be, swap_bytes; destruct big; [split; assumption|apply bytes_rev; split; assumption]).
  destruct B as [BL BF]. rewrite <- (be_bytes_value big w L). unfold to_address. rewrite <- (firstn_skipn 12 (to_be_bytes big w)) at 3.
  rewrite be_number_app. assert (SL : length (skipn 12 (to_be_bytes big w)) = 20%nat) by (rewrite skipn_length, BL; reflexivity).
  assert (SF : Forall (fun b => 0 <= b < 256) (skipn 12 (to_be_bytes big w))) by (rewrite <- (firstn_skipn 12 (to_be_bytes big w)) in BF; apply Forall_app in BF; apply BF).
  split; [split; assumption|]. rewrite SL. change (256 ^ Z.of_nat 20) with (2 ^ 160). rewrite Z.add_comm, Z_mod_plus_full. symmetry. apply Z.mod_small.
  pose proof (be_number_bound _ SF) as X. rewrite SL in X. exact X.
Qed.
Lemma into_word_value a : be_number (into_word a) = be_number a.
Proof. unfold into_word. rewrite be_number_app. change (be_number (repeat 0 12)) with 0. lia. Qed.

Lemma limb_top u k : is_word u -> (k = 1 \/ k = 2 \/ k = 3)%nat -> limb u k = u / 2 ^ (64 * Z.of_nat k) mod 2 ^ 64.
Proof. intros U [->|[->| ->]]; reflexivity. Qed.
Lemma limbs_split u : is_word u ->
  u = limb u 0 + 2 ^ 64 * (limb u 1 + 2 ^ 64 * (limb u 2 + 2 ^ 64 * limb u 3)) /\ 0 <= limb u 0 < 2 ^ 64 /\ 0 <= limb u 1 < 2 ^ 64 /\ 0 <= limb u 2 < 2 ^ 64 /\ 0 <= limb u 3 < 2 ^ 64.
Proof.
  intros U. unfold limb, as_limbs. cbn [nth]. split.
  - assert (E1 : u / 2 ^ 128 = u / 2 ^ 64 / 2 ^ 64) by (rewrite Z.div_div by lia; reflexivity).
    assert (E2 : u / 2 ^ 192 = u / 2 ^ 128 / 2 ^ 64) by (rewrite Z.div_div by lia; reflexivity).
    assert (E3 : u / 2 ^ 192 mod 2 ^ 64 = u / 2 ^ 192).
    { apply Z.mod_small. unfold is_word in U. split; [apply Z.div_pos; lia|]. apply Z.div_lt_upper_bound; [lia|]. exact (proj2 U). }
    rewrite E3. pose proof (Z.div_mod u (2 ^ 64) ltac:(lia)). pose proof (Z.div_mod (u / 2 ^ 64) (2 ^ 64) ltac:(lia)). pose proof (Z.div_mod (u / 2 ^ 128) (2 ^ 64) ltac:(lia)). lia.
  - repeat split; apply Z.mod_pos_bound; lia.
Qed.
Lemma high_zero u : is_word u -> ((limb u 1 =? 0) && (limb u 2 =? 0) && (limb u 3 =? 0)) = (u <? 2 ^ 64).
Proof.
  intros U. destruct (limbs_split u U) as (E & L0 & L1 & L2 & L3). apply Bool.eq_iff_eq_true. rewrite !Bool.andb_true_iff, !Z.eqb_eq, Z.ltb_lt. lia.
Qed.
Lemma try_usize_spec bits big w n : bytes 32 w -> 0 <= bits <= 64 -> try_usize bits big w = Some n <-> to_u256 big w = n /\ n < 2 ^ bits.
Proof.
  intros B K. destruct (word_back big w B) as (U & _). unfold try_usize. set (u := to_u256 big w) in *.
  destruct (limbs_split u U) as (E & L0 & L1 & L2 & L3).
  assert (P : 2 ^ bits <= 2 ^ 64) by (apply Z.pow_le_mono_r; lia).
  destruct (_ || _) eqn:C.
  - split; [discriminate|]. intros [<- X]. exfalso. rewrite !Bool.orb_true_iff, Z.ltb_lt, !Bool.negb_true_iff, !Z.eqb_neq in C. lia.
  - rewrite !Bool.orb_false_iff, Z.ltb_ge, !Bool.negb_false_iff, !Z.eqb_eq in C. split; [intros X; injection X as <-; lia|]. intros [<- X]. f_equal. lia.
Qed.
Lemma as_u64_sat_spec u : is_word u -> as_u64_sat u = Z.min u (2 ^ 64 - 1).
Proof.
  intros U. unfold as_u64_sat. rewrite high_zero by exact U. destruct (u <? 2 ^ 64) eqn:C; [|apply Z.ltb_ge in C; lia]. apply Z.ltb_lt in C.
  unfold is_word in U. unfold limb, as_limbs. cbn [nth]. rewrite Z.mod_small by lia. lia.
Qed.
Lemma as_usize_sat_spec bits u : is_word u -> 0 <= bits <= 64 -> as_usize_sat bits u = Z.min u (2 ^ bits - 1).
Proof.
  intros U K. unfold as_usize_sat. rewrite as_u64_sat_spec by exact U. assert (P : 2 ^ bits <= 2 ^ 64) by (apply Z.pow_le_mono_r; lia). lia.
Qed.
