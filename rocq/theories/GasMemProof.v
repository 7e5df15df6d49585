(** Lemmas about gas charging and memory offsets. *)
From Verif Require Import GasMemModel GasMemSpec.
From Coq Require Import ZifyBool.
Open Scope Z_scope.

Lemma consts : U64 = 18446744073709551616 /\ 2 ^ 63 = 9223372036854775808 /\ 2 ^ 55 = 36028797018963968.
Proof. repeat split. Qed.

(** ** Gas. *)
Definition amount (c : charge) : Z := match c with Inline c | Builtin c | BuiltinMem c => c end.

Lemma do_charge_ok rem c : 0 <= rem < U64 -> 0 <= amount c -> amount c <= rem ->
  do_charge rem c = (rem - amount c, Continue).
Proof.
  intros Hr Hc Hle. unfold do_charge, gas_cost_imm, gas_cost, gas_macro. destruct c as [c|c|c]; cbn [amount] in *.
  - destruct (c =? 0) eqn:E; [f_equal; lia|]. replace (rem <? c) with false by lia.
    rewrite Z.mod_small by lia. reflexivity.
  - replace (rem <? c) with false by lia. reflexivity.
  - replace (rem <? c) with false by lia. reflexivity.
Qed.
Lemma do_charge_fail rem c : 0 <= rem -> 0 <= amount c -> rem < amount c ->
  exists r e, do_charge rem c = (r, e) /\ (e = OutOfGas \/ (e = Fail /\ r = rem)).
Proof.
  intros Hr Hc Hle. unfold do_charge, gas_cost_imm, gas_cost, gas_macro. destruct c as [c|c|c]; cbn [amount] in *.
  - replace (c =? 0) with false by lia. replace (rem <? c) with true by lia. eauto.
  - replace (rem <? c) with true by lia. eauto.
  - replace (rem <? c) with true by lia. eauto 6.
Qed.

Lemma charges_spec l g :
  0 <= g < U64 -> Forall (fun c => 0 <= amount c) l ->
  match pay g (map amount l) with
  | Some g' => reported (charges g l) = (g', Continue) /\ 0 <= g' <= g
  | None => exists g' e, reported (charges g l) = (g', e) /\ e <> Continue /\ 0 <= g' <= g /\ (e = OutOfGas -> g' = 0)
  end.
Proof.
  intros Hg Hl. revert g Hg. induction Hl as [|c l Hc Hl IH]; intros g Hg; cbn [map pay charges].
  - split; [reflexivity|lia].
  - destruct (g <? amount c) eqn:E.
    + destruct (do_charge_fail g c) as (r & e & -> & He); try lia.
      destruct He as [->|[-> ->]]; cbn.
      * exists 0, OutOfGas. repeat split; try lia; discriminate.
      * exists g, Fail. repeat split; try lia; try discriminate.
    + rewrite do_charge_ok by lia. specialize (IH (g - amount c) ltac:(lia)).
      destruct (pay (g - amount c) (map amount l)) as [g'|].
      * destruct IH as [IH1 IH2]. split; [exact IH1|lia].
      * destruct IH as (g' & e & H1 & H2 & H3 & H4). exists g', e. repeat split; try assumption; lia.
Qed.

(** ** Memory. *)
Lemma C_mem_mono a b : 0 <= a <= b -> C_mem a <= C_mem b.
Proof.
  intros H. unfold C_mem. assert (a * a <= b * b) by nia.
  pose proof (Z.div_le_mono (a * a) (b * b) 512). lia.
Qed.

Lemma memory_gas_exact w : 0 <= w < 2 ^ 32 -> memory_gas w = C_mem w.
Proof.
  intros H. change (2 ^ 32) with 4294967296 in H. unfold memory_gas, C_mem, sat_u64. destruct consts as (-> & _ & _).
  assert (0 <= w * w < 18446744073709551616) by nia.
  rewrite (Z.min_l (w * w)) by lia. rewrite (Z.min_l (3 * w)) by lia.
  assert (0 <= w * w / 512 <= w * w). { split; [apply Z.div_pos; lia|]. apply Z.div_le_upper_bound; lia. }
  assert (w * w / 512 < 18446744073709551616 / 512). { apply Z.div_lt_upper_bound; [lia|]. change (512 * (18446744073709551616 / 512)) with 18446744073709551616. lia. }
  change (18446744073709551616 / 512) with 36028797018963968 in *. rewrite Z.min_l by lia. reflexivity.
Qed.

Lemma memory_gas_big w : 2 ^ 32 <= w -> 2 ^ 55 <= memory_gas w /\ 2 ^ 55 <= C_mem w.
Proof.
  intros H. change (2 ^ 32) with 4294967296 in H. unfold memory_gas, C_mem, sat_u64. destruct consts as (-> & _ & ->).
  assert (18446744073709551616 <= w * w) by nia.
  assert (36028797018963968 <= w * w / 512). { apply Z.div_le_lower_bound; lia. }
  rewrite (Z.min_r (w * w)) by lia.
  change ((18446744073709551616 - 1) / 512) with 36028797018963967. lia.
Qed.

(** What both sides agree on as long as all gas ever available stays below 2^55. *)
Definition mem_ok (m : mem) : Prop :=
  0 <= mm_gas m /\ 0 <= mm_words m /\ mm_paid m = C_mem (mm_words m) /\ mm_gas m + mm_paid m < 2 ^ 55.

Lemma mem_ok_small m : mem_ok m -> mm_words m < 2 ^ 32.
Proof.
  intros (H1 & H2 & H3 & H4). destruct (Z.ltb_spec (mm_words m) (2 ^ 32)); [assumption|].
  destruct (memory_gas_big (mm_words m)); [assumption|]. lia.
Qed.

Lemma ensure_spec m off len :
  mem_ok m -> 0 <= off -> 0 <= len -> off < U64 -> len < U64 ->
  match evm_touch (mm_gas m) (mm_words m) off len with
  | None => ensure_memory m off len = None
  | Some (g', w') => ensure_memory m off len = Some (mkMem g' w' (C_mem w')) /\ mem_ok (mkMem g' w' (C_mem w'))
  end.
Proof.
  intros Hm Ho Hl Hou Hlu. pose proof (mem_ok_small m Hm) as Hsm. destruct Hm as (Hg & Hw & Hp & Ht).
  destruct m as [g w p]. cbn [mm_gas mm_words mm_paid] in *. subst p.
  unfold evm_touch, ensure_memory. cbn [mm_gas mm_words mm_paid].
  set (req := (off + len + 31) / 32). set (nw := num_words (sat_u64 (off + len))).
  assert (Hreq : 0 <= req) by (apply Z.div_pos; lia).
  pose proof (C_mem_mono 0 w ltac:(lia)) as HC0. change (C_mem 0) with 0 in HC0.
  destruct consts as (EU & _ & E55).
  assert (Hcase : (req < 2 ^ 32 /\ nw = req) \/ (2 ^ 32 <= req /\ 2 ^ 32 <= nw)).
  { unfold nw, num_words, sat_u64, req. rewrite EU in *. change (2 ^ 32) with 4294967296.
    destruct (Z.ltb_spec (off + len + 31) 18446744073709551616).
    - rewrite (Z.min_l (off + len)) by lia. rewrite Z.min_l by lia. lia.
    - right. split; [apply Z.div_le_lower_bound; lia|]. apply Z.div_le_lower_bound; lia. }
  destruct (Z.ltb_spec w req) as [Hlt|Hge].
  - rewrite Z.max_r by lia. replace (w <? nw) with true by (destruct Hcase; lia).
    destruct Hcase as [[Hr ->]|[Hr Hn]].
    + rewrite memory_gas_exact by lia. destruct (g <? C_mem req - C_mem w) eqn:E; [reflexivity|].
      split; [reflexivity|]. pose proof (C_mem_mono w req ltac:(lia)).
      repeat split; cbn; lia.
    + destruct (memory_gas_big req Hr) as [_ H1]. destruct (memory_gas_big nw Hn) as [H2 _].
      replace (g <? C_mem req - C_mem w) with true by lia.
      replace (g <? memory_gas nw - C_mem w) with true by lia. reflexivity.
  - rewrite Z.max_l by lia. replace (w <? nw) with false by (destruct Hcase as [[? ->]|[? ?]]; lia).
    rewrite Z.sub_diag. replace (g <? 0) with false by lia. rewrite Z.sub_0_r.
    split; [reflexivity|]. repeat split; cbn; lia.
Qed.

Lemma build_ensure_memory_spec m off len :
  mem_ok m -> is_word off -> 0 < len < 2 ^ 63 ->
  match evm_touch (mm_gas m) (mm_words m) off len with
  | None => build_ensure_memory m off len = None
  | Some (g', w') => build_ensure_memory m off len = Some (off, mkMem g' w' (C_mem w'))
  end.
Proof.
  intros Hm Hoff Hlen. unfold is_word in Hoff. destruct consts as (EU & E63 & E55).
  pose proof (mem_ok_small m Hm) as Hsm. pose proof Hm as (Hg & Hw & Hp & Ht).
  assert (Hpos : 0 <= C_mem (mm_words m)). { pose proof (C_mem_mono 0 (mm_words m) ltac:(lia)) as H. exact H. }
  unfold build_ensure_memory, u256_to_u64_saturating.
  destruct (off <=? 2 ^ 63 - 1) eqn:Eo.
  - rewrite (Z.mod_small off) by (rewrite EU in *; lia). rewrite (Z.mod_small (off + len)) by (rewrite EU in *; lia).
    pose proof (ensure_spec m (off + len) 0 Hm ltac:(lia) ltac:(lia) ltac:(rewrite EU; lia) ltac:(rewrite EU; lia)) as HE.
    assert (Hreq : evm_touch (mm_gas m) (mm_words m) (off + len) 0 = evm_touch (mm_gas m) (mm_words m) off len).
    { unfold evm_touch. rewrite Z.add_0_r. reflexivity. }
    rewrite Hreq in HE. clear Hreq.
    destruct (32 * mm_words m <? off + len) eqn:Ex.
    + destruct (evm_touch _ _ off len) as [[g' w']|].
      * destruct HE as [-> _]. reflexivity.
      * rewrite HE. reflexivity.
    + assert (Htouch : evm_touch (mm_gas m) (mm_words m) off len = Some (mm_gas m, mm_words m)).
      { unfold evm_touch. assert (Hd : (off + len + 31) / 32 < mm_words m + 1) by (apply Z.div_lt_upper_bound; lia).
        rewrite Z.max_l by lia.
        rewrite Z.sub_diag. replace (mm_gas m <? 0) with false by lia. rewrite Z.sub_0_r. reflexivity. }
      rewrite Htouch, <- Hp. destruct m; reflexivity.
  - (* clamped: both fail *)
    assert (Hbig : 2 ^ 32 <= (off + len + 31) / 32) by (change (2 ^ 32) with 4294967296; apply Z.div_le_lower_bound; lia).
    assert (HN : evm_touch (mm_gas m) (mm_words m) off len = None).
    { unfold evm_touch. rewrite Z.max_r by lia. destruct (memory_gas_big _ Hbig) as [_ H1].
      replace (_ <? _) with true by lia. reflexivity. }
    rewrite HN. rewrite (Z.mod_small (2 ^ 63 - 1 + len)) by (rewrite EU; lia).
    replace (32 * mm_words m <? 2 ^ 63 - 1 + len) with true by (change (2 ^ 32) with 4294967296 in Hsm; lia).
    pose proof (ensure_spec m (2 ^ 63 - 1 + len) 0 Hm ltac:(lia) ltac:(lia) ltac:(rewrite EU; lia) ltac:(rewrite EU; lia)) as HE.
    assert (HN2 : evm_touch (mm_gas m) (mm_words m) (2 ^ 63 - 1 + len) 0 = None).
    { unfold evm_touch.
      assert (Hb2 : 2 ^ 32 <= (2 ^ 63 - 1 + len + 0 + 31) / 32) by (change (2 ^ 32) with 4294967296; apply Z.div_le_lower_bound; lia).
      rewrite Z.max_r by lia. destruct (memory_gas_big _ Hb2) as [_ H1].
      replace (_ <? _) with true by lia. reflexivity. }
    rewrite HN2 in HE. rewrite HE. reflexivity.
Qed.

Lemma builtin_range_spec m off len :
  mem_ok m -> is_word off -> is_word len -> 0 < len ->
  match evm_touch (mm_gas m) (mm_words m) off len with
  | None => builtin_range m off len = None
  | Some (g', w') => builtin_range m off len = Some (Some (off, len), mkMem g' w' (C_mem w'))
  end.
Proof.
  intros Hm Hoff Hlen Hpos. unfold is_word in *. destruct consts as (EU & E63 & E55).
  pose proof (mem_ok_small m Hm) as Hsm. pose proof Hm as (Hg & Hw & Hp & Ht).
  assert (Hcp : 0 <= C_mem (mm_words m)). { pose proof (C_mem_mono 0 (mm_words m) ltac:(lia)) as H. exact H. }
  assert (HN : U64 <= off + len -> evm_touch (mm_gas m) (mm_words m) off len = None).
  { intros Hb. unfold evm_touch.
    assert (Hbig : 2 ^ 32 <= (off + len + 31) / 32) by (change (2 ^ 32) with 4294967296; apply Z.div_le_lower_bound; lia).
    rewrite Z.max_r by lia. destruct (memory_gas_big _ Hbig) as [_ H1].
    replace (_ <? _) with true by lia. reflexivity. }
  unfold builtin_range, try_into_usize.
  destruct (len <? U64) eqn:El; [|rewrite HN by lia; reflexivity].
  replace (len =? 0) with false by lia.
  destruct (off <? U64) eqn:Eo; [|rewrite HN by lia; reflexivity].
  pose proof (ensure_spec m off len Hm ltac:(lia) ltac:(lia) ltac:(lia) ltac:(lia)) as HE.
  destruct (evm_touch _ _ off len) as [[g' w']|].
  - destruct HE as [-> _]. reflexivity.
  - rewrite HE. reflexivity.
Qed.

Lemma builtin_range_all m off len :
  mem_ok m -> is_word off -> is_word len ->
  match evm_range (mm_gas m) (mm_words m) off len with
  | None => builtin_range m off len = None
  | Some (g', w') => builtin_range m off len =
      Some (if len =? 0 then None else Some (off, len), mkMem g' w' (C_mem w'))
  end.
Proof.
  intros Hm Ho Hl. unfold evm_range. destruct (len =? 0) eqn:E.
  - apply Z.eqb_eq in E. subst. destruct Hm as (_ & _ & Hp & _). destruct m as [g w p]. cbn in *. subst. reflexivity.
  - apply builtin_range_spec; try assumption. unfold is_word in *. lia.
Qed.
