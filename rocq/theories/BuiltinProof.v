(** Lemmas about the builtins. *)
From Coq Require Import Lia.
From Verif Require Export BuiltinModel BuiltinSpec GasMemProof.
Open Scope Z_scope.
Local Arguments Z.mul : simpl never.
Local Arguments Z.sub : simpl never.
Local Arguments Z.add : simpl never.

(** What a builtin state means. *)
Definition contents (s : bst) (i : Z) : Z := if i <? b_size s then b_data s i else 0.
Definition meaning (s : bst) : evm := mkE (mm_gas (b_mem s)) (mm_words (b_mem s)) (contents s).
Definition same (e1 e2 : evm) : Prop :=
  e_gas e1 = e_gas e2 /\ e_words e1 = e_words e2 /\ forall i, 0 <= i -> e_mem e1 i = e_mem e2 i.
Definition st_ok (s : bst) : Prop := mem_ok (b_mem s).

(** A builtin does what the specification says: it fails (without panicking) or gives the same state. *)
Definition does (r : bres bst) (x : option evm) : Prop :=
  match x with
  | None => exists e, r = BErr e /\ e <> EPanic
  | Some e' => exists s', r = BOk s' /\ st_ok s' /\ same (meaning s') e'
  end.
Definition yields {A} (r : bres (A * bst)) (x : option (A * evm)) : Prop :=
  match x with
  | None => exists e, r = BErr e /\ e <> EPanic
  | Some (a, e') => exists s', r = BOk (a, s') /\ st_ok s' /\ same (meaning s') e'
  end.

Lemma C_mem_pos w : 0 <= w -> 0 <= C_mem w.
Proof. intros H. exact (C_mem_mono 0 w ltac:(lia)). Qed.

Lemma charge_ok s c : st_ok s -> 0 <= c -> c <= mm_gas (b_mem s) ->
  exists s', charge_b s c = BOk s' /\ st_ok s' /\ mm_gas (b_mem s') = mm_gas (b_mem s) - c /\
    mm_words (b_mem s') = mm_words (b_mem s) /\ forall i, contents s' i = contents s i.
Proof.
  intros Hs Hc Hg. unfold charge_b. replace (_ <? c) with false by lia. eexists. split; [reflexivity|].
  destruct Hs as (A & B & C & D). cbn. repeat split; cbn; try lia. 
Qed.

Lemma too_big w off len g : 0 <= w -> C_mem w + g < 2 ^ 55 -> 0 <= off -> 0 <= len -> U64 <= off + len ->
  g < C_mem (Z.max w ((off + len + 31) / 32)) - C_mem w.
Proof.
  intros Hw Hg Ho Hl Hb. destruct consts as (EU & E63 & E55).
  assert (Hbig : 2 ^ 32 <= (off + len + 31) / 32) by (change (2 ^ 32) with 4294967296; apply Z.div_le_lower_bound; lia).
  destruct (memory_gas_big _ Hbig) as [_ H1].
  pose proof (C_mem_mono ((off + len + 31) / 32) (Z.max w ((off + len + 31) / 32)) ltac:(split; [apply Z.div_pos|]; lia)). lia.
Qed.

Lemma expand_spec s off len : st_ok s -> 0 <= off < U64 -> 0 <= len < U64 ->
  let w' := Z.max (mm_words (b_mem s)) ((off + len + 31) / 32) in
  let c := C_mem w' - C_mem (mm_words (b_mem s)) in
  if mm_gas (b_mem s) <? c then expand s off len = BErr EMemoryOOG
  else exists s', expand s off len = BOk s' /\ st_ok s' /\ mm_gas (b_mem s') = mm_gas (b_mem s) - c /\
    mm_words (b_mem s') = w' /\ (forall i, contents s' i = contents s i) /\ off + len <= b_size s'.
Proof.
  intros Hs Ho Hl w' c. pose proof (ensure_spec (b_mem s) off len Hs ltac:(lia) ltac:(lia) ltac:(lia) ltac:(lia)) as HE.
  unfold evm_touch in HE. fold w' in HE. fold c in HE. unfold expand.
  destruct (_ <? c) eqn:E.
  - rewrite HE. reflexivity.
  - destruct HE as [-> Hok]. eexists. split; [reflexivity|]. split; [exact Hok|]. cbn. split; [reflexivity|]. split; [reflexivity|].
    split.
    + intros i. unfold contents, b_size. cbn. destruct (i <? 32 * mm_words (b_mem s)) eqn:E1.
      * replace (i <? 32 * w') with true by lia. reflexivity.
      * destruct (i <? 32 * w'); reflexivity.
    + unfold b_size. cbn. unfold w'. pose proof (Z.div_mod (off + len + 31) 32 ltac:(discriminate)). pose proof (Z.mod_pos_bound (off + len + 31) 32 ltac:(reflexivity)). lia.
Qed.

Lemma write_spec s off l : 0 <= off -> off + Z.of_nat (length l) <= b_size s ->
  exists s', write s off l = BOk s' /\ b_mem s' = b_mem s /\
    forall i, 0 <= i -> contents s' i = store (contents s) off (Z.of_nat (length l)) (fun k => nth (Z.to_nat k) l 0) i.
Proof.
  intros Ho Hb. unfold write. replace (_ <? _) with false by lia. eexists. split; [reflexivity|]. split; [reflexivity|].
  intros i Hi. unfold contents, store, b_size in *. cbn.
  destruct (i <? 32 * mm_words (b_mem s)) eqn:E; destruct ((off <=? i) && (i <? off + Z.of_nat (length l))) eqn:E2; try reflexivity. lia.
Qed.

Lemma nth_repeat0 k n : nth k (repeat 0 n) 0 = 0.
Proof. revert k; induction n; intros [|k]; cbn; auto. Qed.
Lemma nth_firstn_in {A} (d : A) n k l : (k < n)%nat -> nth k (firstn n l) d = nth k l d.
Proof. revert k l; induction n; intros k l H; [lia|]. destruct l, k; cbn; try reflexivity. apply IHn. lia. Qed.
Lemma nth_skipn_add {A} (d : A) n k l : nth k (skipn n l) d = nth (n + k) l d.
Proof. revert l; induction n; intros l; cbn; [reflexivity|]. destruct l; [destruct k; reflexivity|]. apply IHn. Qed.

Lemma set_data_spec s off doff len data : 0 <= off -> 0 <= doff -> 0 <= len -> off + len <= b_size s ->
  exists s', set_data s off doff len data = BOk s' /\ b_mem s' = b_mem s /\
    forall i, 0 <= i -> contents s' i = store (contents s) off len (fun k => data_at data (doff + k)) i.
Proof.
  intros Ho Hd Hl Hb. unfold set_data. destruct (_ <=? doff) eqn:E.
  - destruct (write_spec s off (repeat 0 (Z.to_nat len))) as (s' & -> & Hm & Hc); [assumption|rewrite repeat_length; lia|].
    exists s'. split; [reflexivity|]. split; [assumption|]. intros i Hi. rewrite Hc by assumption. unfold store. rewrite repeat_length, Z2Nat.id by lia.
    destruct (_ && _) eqn:E2; [|reflexivity]. rewrite nth_repeat0. unfold data_at. replace (_ <? _) with false by lia. reflexivity.
  - set (n := Z.min (doff + len) (Z.of_nat (length data)) - doff).
    assert (Hn : 0 <= n <= len /\ n <= Z.of_nat (length data) - doff /\ (n < len -> doff + n = Z.of_nat (length data))) by (unfold n; lia).
    assert (HL : Z.of_nat (length (firstn (Z.to_nat n) (skipn (Z.to_nat doff) data))) = n).
    { rewrite firstn_length, skipn_length. lia. }
    destruct (write_spec s off (firstn (Z.to_nat n) (skipn (Z.to_nat doff) data))) as (s1 & -> & Hm1 & Hc1); [assumption|rewrite HL; lia|].
    rewrite HL in Hc1. cbn [bbind].
    destruct (write_spec s1 (off + n) (repeat 0 (Z.to_nat (len - n)))) as (s2 & -> & Hm2 & Hc2); [lia|unfold b_size in *; rewrite Hm1, repeat_length; lia|].
    exists s2. split; [reflexivity|]. split; [congruence|]. intros i Hi. rewrite Hc2 by assumption. unfold store at 1. rewrite repeat_length, Z2Nat.id by lia.
    unfold store, data_at. rewrite nth_repeat0.
    destruct ((off + n <=? i) && (i <? off + n + (len - n))) eqn:E2.
    + replace ((off <=? i) && (i <? off + len)) with true by lia. replace (_ <? _) with false by lia. reflexivity.
    + rewrite Hc1 by assumption. unfold store. destruct ((off <=? i) && (i <? off + n)) eqn:E3.
      * replace ((off <=? i) && (i <? off + len)) with true by lia. replace (_ <? Z.of_nat _) with true by lia.
        rewrite nth_firstn_in by lia. rewrite nth_skipn_add. f_equal. lia.
      * replace ((off <=? i) && (i <? off + len)) with false by lia. reflexivity.
Qed.

Lemma map_seq_ext {A} (f g : nat -> A) n : (forall k, (k < n)%nat -> f k = g k) -> map f (seq 0 n) = map g (seq 0 n).
Proof. intros H. apply map_ext_in. intros k Hk. apply in_seq in Hk. apply H. lia. Qed.

Lemma slice_spec s off len : 0 <= off -> 0 <= len -> off + len <= b_size s -> slice s off len = BOk (load_range (contents s) off len).
Proof.
  intros Ho Hl Hb. unfold slice. replace (_ <? _) with false by lia. f_equal. apply map_seq_ext. intros k Hk.
  unfold contents. replace (_ <? _) with true by lia. reflexivity.
Qed.

Lemma data_at_sat data off k : Z.of_nat (length data) < U64 -> 0 <= off -> 0 <= k -> data_at data (sat_usize off + k) = data_at data (off + k).
Proof.
  intros Hd Ho Hk. unfold data_at, sat_usize. destruct (Z.ltb_spec off U64).
  - rewrite Z.min_l by lia. reflexivity.
  - rewrite Z.min_r by lia. replace (U64 - 1 + k <? Z.of_nat (length data)) with false by lia.
    replace (off + k <? Z.of_nat (length data)) with false by lia. reflexivity.
Qed.

(** One range, non-empty: pay [cost], then grow. *)
Lemma charge_expand s cost off len : st_ok s -> 0 <= cost -> is_word off -> is_word len -> 0 < len ->
  match spend (meaning s) cost [(off, len)] with
  | None => exists e, (do l <- to_usize len; do s <- charge_b s cost; do o <- to_usize off; expand s o l) = BErr e /\ e <> EPanic
  | Some e' => to_usize len = BOk len /\ to_usize off = BOk off /\ exists s1 s', charge_b s cost = BOk s1 /\ expand s1 off len = BOk s' /\
      st_ok s' /\ same (meaning s') e' /\ off + len <= b_size s'
  end.
Proof.
  intros Hs Hc Ho Hl Hp. unfold is_word in *. unfold spend. cbn [fold_left words_with meaning e_words e_gas]. replace (len =? 0) with false by lia.
  assert (Hw : 0 <= mm_words (b_mem s)) by (destruct Hs as (_ & ? & _); lia).
  assert (Hb : C_mem (mm_words (b_mem s)) + mm_gas (b_mem s) < 2 ^ 55) by (destruct Hs as (_ & _ & ? & ?); lia).
  pose proof (C_mem_mono (mm_words (b_mem s)) (Z.max (mm_words (b_mem s)) ((off + len + 31) / 32)) ltac:(lia)) as Hmono.
  unfold to_usize.
  destruct (Z.ltb_spec len U64) as [Hlu|Hlu].
  2:{ pose proof (too_big (mm_words (b_mem s)) off len (mm_gas (b_mem s)) Hw Hb ltac:(lia) ltac:(lia) ltac:(lia)).
      replace (_ <? cost + _) with true by lia. cbn. eexists. split; [reflexivity|discriminate]. }
  cbn [bbind].
  destruct (Z.ltb_spec (mm_gas (b_mem s)) cost) as [Hcc|Hcc].
  { replace (_ <? cost + _) with true by lia. unfold charge_b. replace (_ <? cost) with true by lia. eexists. split; [reflexivity|discriminate]. }
  destruct (charge_ok s cost Hs Hc ltac:(lia)) as (s1 & -> & Hs1 & Hg1 & Hw1 & Hc1). cbn [bbind].
  destruct (Z.ltb_spec off U64) as [Hou|Hou].
  2:{ pose proof (too_big (mm_words (b_mem s)) off len (mm_gas (b_mem s)) Hw Hb ltac:(lia) ltac:(lia) ltac:(lia)).
      replace (_ <? cost + _) with true by lia. cbn. eexists. split; [reflexivity|discriminate]. }
  cbn [bbind].
  pose proof (expand_spec s1 off len Hs1 ltac:(lia) ltac:(lia)) as HE. cbn zeta in HE. rewrite Hg1, Hw1 in HE.
  set (d := C_mem _ - C_mem _) in *.
  destruct (Z.ltb_spec (mm_gas (b_mem s)) (cost + d)).
  - replace (_ <? d) with true in HE by lia. rewrite HE. eexists. split; [reflexivity|discriminate].
  - replace (_ <? d) with false in HE by lia. destruct HE as (s' & HE & Hs' & Hg' & Hw' & Hc' & Hsz).
    split; [reflexivity|]. split; [reflexivity|]. exists s1, s'. repeat (split; [first [assumption|reflexivity]|]). split; [|assumption].
    split; [cbn; lia|]. split; [cbn; lia|]. intros i Hi. cbn. rewrite Hc', Hc1. reflexivity.
Qed.

Lemma same_refl e : same e e.
Proof. repeat split; reflexivity. Qed.
Lemma spend_empty s off : st_ok s -> spend (meaning s) 0 [(off, 0)] = Some (mkE (mm_gas (b_mem s)) (mm_words (b_mem s)) (contents s)).
Proof.
  intros (H & _). unfold spend. cbn. rewrite Z.sub_diag. replace (_ <? 0) with false by lia. rewrite Z.sub_0_r. reflexivity.
Qed.
Lemma store_ext m1 m2 off len f1 f2 i : m1 i = m2 i -> (forall k, 0 <= k -> f1 k = f2 k) -> store m1 off len f1 i = store m2 off len f2 i.
Proof. intros H1 H2. unfold store. destruct (_ && _) eqn:E; [apply H2; lia|assumption]. Qed.

Lemma store_empty m off f i : store m off 0 f i = m i.
Proof. unfold store. destruct (_ && _) eqn:E; [lia|reflexivity]. Qed.

Ltac same_err := let H := fresh in intros H; first [discriminate H | injection H as ->; reflexivity | injection H as <-; reflexivity].

Lemma copy_operation_does cc s mo off len data :
  st_ok s -> (forall n, 0 <= n -> 0 <= cc n) -> cc 0 = 0 -> is_word mo -> is_word off -> is_word len -> Z.of_nat (length data) < U64 ->
  does (copy_operation cc s mo off len data) (evm_copy (cc len) (meaning s) mo off len data).
Proof.
  intros Hs Hcc H0 Hmo Hoff Hlen Hd. unfold evm_copy, copy_operation.
  destruct (Z.eqb_spec len 0) as [->|Hn].
  - rewrite H0, spend_empty by assumption. cbn. exists s. split; [reflexivity|]. split; [assumption|].
    split; [reflexivity|]. split; [reflexivity|]. intros i Hi. cbn [e_mem with_mem meaning]. rewrite store_empty. reflexivity.
  - assert (Hl : 0 < len) by (unfold is_word in *; lia).
    pose proof (charge_expand s (cc len) mo len Hs (Hcc len ltac:(lia)) Hmo Hlen Hl) as HE.
    destruct (spend _ _ _) as [e'|].
    + destruct HE as (-> & Ho & s1 & s2 & Hc & He & Hs2 & Hsame & Hsz). cbn [bbind]. replace (len =? 0) with false by lia.
      rewrite Hc. cbn [bbind]. rewrite Ho. cbn [bbind]. rewrite He. cbn [bbind].
      destruct (set_data_spec s2 mo (sat_usize off) len data) as (s3 & -> & Hm & Hc3); try (unfold is_word, sat_usize in *; destruct consts as (EU & _); lia).
      exists s3. split; [reflexivity|]. split; [unfold st_ok; rewrite Hm; assumption|]. destruct Hsame as (A & B & C).
      split; [cbn in *; rewrite Hm; assumption|]. split; [cbn in *; rewrite Hm; assumption|].
      intros i Hi. cbn. rewrite Hc3 by assumption. apply store_ext; [apply C; assumption|]. intros k Hk. apply data_at_sat; unfold is_word in *; lia.
    + destruct HE as (e & HE & Hp). exists e. split; [|assumption]. revert HE. unfold to_usize.
      destruct (len <? U64); cbn [bbind]; [|same_err]. replace (len =? 0) with false by lia.
      destruct (charge_b s (cc len)); cbn [bbind]; [|same_err]. destruct (mo <? U64); cbn [bbind]; [|same_err].
      destruct (expand a mo len); cbn [bbind]; same_err.
Qed.

Lemma extcodecopy_does cost cold s a mo off len :
  st_ok s -> (forall n, 0 <= n -> 0 <= cost n) -> 0 <= cold -> is_word mo -> is_word off -> is_word len -> Z.of_nat (length (h_code a)) < U64 ->
  does (extcodecopy cost cold s a mo off len)
    (if h_fails a then None else evm_copy (cost len + (if h_cold a then cold else 0)) (meaning s) mo off len (h_code a)).
Proof.
  intros Hs Hcost Hcold Hmo Hoff Hlen Hd. 
  assert (Hlen0 : 0 <= len) by (unfold is_word in *; lia).
  assert (Hoff0 : 0 <= off) by (unfold is_word in *; lia).
  assert (Hmo0 : 0 <= mo) by (unfold is_word in *; lia).
  set (k := if h_cold a then cold else 0).
  assert (Hk : 0 <= k) by (unfold k; destruct (h_cold a); lia).
  (* the checks before the account is loaded *)
  assert (HA : match spend (meaning s) (cost len) [(mo, len)] with
    | None => exists e, extcodecopy cost cold s a mo off len = BErr e /\ e <> EPanic
    | Some e' => exists s2 mo', extcodecopy cost cold s a mo off len =
          (do s <- load_account cold s2 a; set_data s mo' (Z.min (sat_usize off) (Z.of_nat (length (h_code a)))) len (h_code a)) /\
        st_ok s2 /\ same (meaning s2) e' /\ mo' + len <= b_size s2 /\ 0 <= mo' /\ (len <> 0 -> mo' = mo)
    end).
  { unfold extcodecopy. destruct (Z.eqb_spec len 0) as [->|Hn].
    - unfold spend. cbn [fold_left words_with Z.eqb e_words e_gas]. rewrite Z.sub_diag, Z.add_0_r. cbn [meaning e_gas].
      change (to_usize 0) with (BOk 0). cbn [bbind Z.eqb].
      destruct (Z.ltb_spec (mm_gas (b_mem s)) (cost 0)).
      + unfold charge_b. replace (_ <? cost 0) with true by lia. eexists. split; [reflexivity|discriminate].
      + destruct (charge_ok s (cost 0) Hs (Hcost 0 ltac:(lia)) ltac:(lia)) as (s1 & -> & Hs1 & Hg1 & Hw1 & Hc1). cbn [bbind].
        exists s1, 0. split; [reflexivity|]. split; [assumption|]. split; [split; [cbn; lia|split; [cbn; lia|intros; cbn; apply Hc1]]|].
        unfold b_size. destruct Hs1 as (_ & ? & _). split; [lia|]. split; [lia|congruence].
    - pose proof (charge_expand s (cost len) mo len Hs (Hcost len ltac:(lia)) Hmo Hlen ltac:(lia)) as HE.
      destruct (spend _ _ _) as [e'|].
      + destruct HE as (-> & Ho & s1 & s2 & Hc & He & Hs2 & Hsame & Hsz). cbn [bbind]. rewrite Hc. cbn [bbind].
        replace (len =? 0) with false by lia. rewrite Ho. cbn [bbind]. rewrite He. cbn [bbind].
        exists s2, mo. repeat (split; [first [assumption|reflexivity]|]). reflexivity.
      + destruct HE as (e & HE & Hp). exists e. split; [|assumption]. revert HE. unfold to_usize.
        destruct (len <? U64); cbn [bbind]; [|same_err].
        destruct (charge_b s (cost len)); cbn [bbind]; [|same_err]. replace (len =? 0) with false by lia. destruct (mo <? U64); cbn [bbind]; [|same_err].
        destruct (expand a0 mo len); cbn [bbind]; same_err. }
  unfold evm_copy. unfold spend in *. set (w := fold_left _ _ _) in *. set (d := C_mem w - _) in *.
  destruct (Z.ltb_spec (e_gas (meaning s)) (cost len + d)) as [Hg|Hg].
  { replace (_ <? cost len + k + d) with true by lia. destruct HA as (e & HA & Hp). destruct (h_fails a); exists e; tauto. }
  destruct HA as (s2 & mo' & -> & Hs2 & (A & B & C) & Hsz & Hm0 & Hmm). cbn [e_gas e_words e_mem] in A, B, C.
  unfold load_account. destruct (h_fails a). { cbn. eexists. split; [reflexivity|discriminate]. }
  assert (HB : if e_gas (meaning s) <? cost len + k + d then
      exists e, (if h_cold a && (mm_gas (b_mem s2) <? cold) then BErr EOutOfGas else if h_cold a then charge_b s2 cold else BOk s2) = BErr e /\ e <> EPanic
    else exists s3, (if h_cold a && (mm_gas (b_mem s2) <? cold) then BErr EOutOfGas else if h_cold a then charge_b s2 cold else BOk s2) = BOk s3 /\
      st_ok s3 /\ mm_gas (b_mem s3) = mm_gas (b_mem s2) - k /\ mm_words (b_mem s3) = mm_words (b_mem s2) /\ forall i, contents s3 i = contents s2 i).
  { cbn in A. cbn [meaning e_gas] in *. unfold k in *. destruct (h_cold a); cbn [andb].
    - destruct (Z.ltb_spec (mm_gas (b_mem s2)) cold).
      + replace (_ <? _) with true by lia. eexists. split; [reflexivity|discriminate].
      + replace (_ <? _) with false by lia. apply charge_ok; [assumption|lia|lia].
    - replace (_ <? _) with false by lia. exists s2. repeat (split; [first [reflexivity|assumption|lia]|]). reflexivity. }
  destruct (_ <? cost len + k + d).
  { destruct HB as (e & -> & Hp). cbn. exists e. tauto. }
  destruct HB as (s3 & -> & Hs3 & Hg3 & Hw3 & Hc3). cbn [bbind].
  destruct (set_data_spec s3 mo' (Z.min (sat_usize off) (Z.of_nat (length (h_code a)))) len (h_code a)) as (s4 & -> & Hm4 & Hc4).
  { assumption. } { unfold sat_usize. destruct consts as (EU & _). lia. } { assumption. } { unfold b_size in *. rewrite Hw3. assumption. }
  exists s4. split; [reflexivity|]. split; [unfold st_ok; rewrite Hm4; assumption|]. cbn in A, B, C.
  split; [cbn; rewrite Hm4, Hg3; cbn [meaning e_gas] in *; lia|]. split; [cbn; rewrite Hm4, Hw3; assumption|].
  intros i Hi. cbn. rewrite Hc4 by assumption. destruct (Z.eq_dec len 0) as [->|Hn].
  - rewrite !store_empty. rewrite Hc3. apply C. assumption.
  - rewrite (Hmm Hn). apply store_ext; [rewrite Hc3; apply C; assumption|]. intros j Hj.
    rewrite <- (data_at_sat (h_code a) off j) by (assumption || lia).
    destruct (Z.leb_spec (sat_usize off) (Z.of_nat (length (h_code a)))).
    + rewrite Z.min_l by lia. reflexivity.
    + rewrite Z.min_r by lia. unfold data_at. replace (Z.of_nat (length (h_code a)) + j <? _) with false by lia.
      replace (_ <? _) with false by lia. reflexivity.
Qed.

Lemma returndatacopy_does cc s mo off len ret :
  st_ok s -> (forall n, 0 <= n -> 0 <= cc n) -> cc 0 = 0 -> is_word mo -> is_word off -> is_word len -> Z.of_nat (length ret) < 2 ^ 63 ->
  does (returndatacopy cc s mo off len ret) (evm_returndatacopy (cc len) (meaning s) mo off len ret).
Proof.
  intros Hs Hcc H0 Hmo Hoff Hlen Hd. destruct consts as (EU & E63 & _).
  assert (Hlen0 : 0 <= len) by (unfold is_word in *; lia).
  assert (Hoff0 : 0 <= off) by (unfold is_word in *; lia).
  assert (Hmo0 : 0 <= mo) by (unfold is_word in *; lia).
  unfold evm_returndatacopy, returndatacopy.
  destruct (Z.ltb_spec (Z.of_nat (length ret)) (off + len)) as [Hb|Hb].
  - unfold to_usize. destruct (Z.ltb_spec len U64); cbn [bbind]; [|eexists; split; [reflexivity|discriminate]].
    replace (_ <? sat_usize (sat_usize off + len)) with true by (unfold sat_usize; lia). eexists; split; [reflexivity|discriminate].
  - assert (Ho : sat_usize off = off) by (unfold sat_usize; lia). assert (He : sat_usize (off + len) = off + len) by (unfold sat_usize; lia).
    assert (Hlu : to_usize len = BOk len) by (unfold to_usize; replace (len <? U64) with true by lia; reflexivity).
    rewrite Hlu. cbn [bbind]. rewrite Ho, He. replace (_ <? off + len) with false by lia.
    replace (off + len <? off) with false by lia.
    unfold evm_copy. destruct (Z.eqb_spec len 0) as [->|Hn].
    + rewrite H0, spend_empty by assumption. destruct (charge_ok s 0 Hs ltac:(lia)) as (s1 & -> & Hs1 & Hg1 & Hw1 & Hc1). { destruct Hs; lia. }
      cbn [bbind does]. exists s1. split; [reflexivity|]. split; [assumption|]. split; [cbn; lia|]. split; [cbn; lia|].
      intros i Hi. cbn [e_mem with_mem meaning]. rewrite store_empty. apply Hc1.
    + pose proof (charge_expand s (cc len) mo len Hs (Hcc len ltac:(lia)) Hmo Hlen ltac:(lia)) as HE.
      destruct (spend _ _ _) as [e'|].
      * destruct HE as (_ & Hm & s1 & s2 & -> & Hx & Hs2 & (A & B & C) & Hsz). cbn [bbind]. rewrite Hm. cbn [bbind]. rewrite Hx. cbn [bbind].
        assert (HL : length (firstn (Z.to_nat (off + len - off)) (skipn (Z.to_nat off) ret)) = Z.to_nat len).
        { rewrite firstn_length, skipn_length. lia. }
        destruct (write_spec s2 mo (firstn (Z.to_nat (off + len - off)) (skipn (Z.to_nat off) ret))) as (s3 & -> & Hm3 & Hc3); [assumption|rewrite HL; lia|].
        exists s3. split; [reflexivity|]. split; [unfold st_ok; rewrite Hm3; assumption|].
        split; [cbn; rewrite Hm3; exact A|]. split; [cbn; rewrite Hm3; exact B|].
        intros i Hi. cbn [e_mem with_mem meaning]. rewrite Hc3 by assumption. rewrite HL, Z2Nat.id by assumption.
        unfold store. destruct ((mo <=? i) && (i <? mo + len)) eqn:E; [|apply C; assumption].
        rewrite nth_firstn_in by lia. rewrite nth_skipn_add. unfold data_at. replace (_ <? _) with true by lia. f_equal. lia.
      * destruct HE as (e & HE & Hp). exists e. split; [|assumption]. revert HE. rewrite Hlu. cbn [bbind]. unfold to_usize.
        destruct (charge_b s (cc len)); cbn [bbind]; [|same_err]. destruct (mo <? U64); cbn [bbind]; [|same_err].
        destruct (expand a mo len); cbn [bbind]; same_err.
Qed.

Lemma two_ranges e cost dst src len : 0 < len -> spend e cost [(dst, len); (src, len)] = spend e cost [(Z.max dst src, len)].
Proof.
  intros H. unfold spend. cbn [fold_left words_with]. replace (len =? 0) with false by lia.
  replace (Z.max (Z.max (e_words e) ((dst + len + 31) / 32)) ((src + len + 31) / 32)) with (Z.max (e_words e) ((Z.max dst src + len + 31) / 32)); [reflexivity|].
  destruct (Z.leb_spec dst src).
  - rewrite (Z.max_r dst src) by lia. pose proof (Z.div_le_mono (dst + len + 31) (src + len + 31) 32 ltac:(lia) ltac:(lia)). lia.
  - rewrite (Z.max_l dst src) by lia. pose proof (Z.div_le_mono (src + len + 31) (dst + len + 31) 32 ltac:(lia) ltac:(lia)). lia.
Qed.

Lemma mcopy_does cc s dst src len :
  st_ok s -> (forall n, 0 <= n -> 0 <= cc n) -> is_word dst -> is_word src -> is_word len ->
  does (mcopy cc s dst src len) (evm_mcopy (cc len) (meaning s) dst src len).
Proof.
  intros Hs Hcc Hdst Hsrc Hlen.
  assert (Hlen0 : 0 <= len) by (unfold is_word in *; lia).
  assert (Hdst0 : 0 <= dst) by (unfold is_word in *; lia).
  assert (Hsrc0 : 0 <= src) by (unfold is_word in *; lia).
  unfold evm_mcopy, mcopy. destruct (Z.eqb_spec len 0) as [->|Hn].
  - unfold spend. cbn [fold_left words_with Z.eqb]. rewrite Z.sub_diag, Z.add_0_r. change (to_usize 0) with (BOk 0). cbn [bbind Z.eqb e_gas meaning].
    destruct (Z.ltb_spec (mm_gas (b_mem s)) (cc 0)).
    + unfold charge_b. replace (_ <? cc 0) with true by lia. eexists. split; [reflexivity|discriminate].
    + destruct (charge_ok s (cc 0) Hs (Hcc 0 ltac:(lia)) ltac:(lia)) as (s1 & -> & Hs1 & Hg1 & Hw1 & Hc1). cbn [bbind does].
      exists s1. split; [reflexivity|]. split; [assumption|]. split; [cbn; lia|]. split; [cbn; lia|].
      intros i Hi. cbn [e_mem with_mem meaning]. rewrite store_empty. apply Hc1.
  - rewrite two_ranges by lia.
    pose proof (charge_expand s (cc len) (Z.max dst src) len Hs (Hcc len ltac:(lia)) ltac:(unfold is_word in *; lia) Hlen ltac:(lia)) as HE.
    destruct (spend _ _ _) as [e'|] eqn:ES.
    + destruct HE as (-> & Hm & s1 & s2 & Hc & Hx & Hs2 & (A & B & C) & Hsz). cbn [bbind]. rewrite Hc. cbn [bbind]. replace (len =? 0) with false by lia.
      assert (Hmx : Z.max dst src < U64). { revert Hm. unfold to_usize. destruct (Z.ltb_spec (Z.max dst src) U64); [lia|discriminate]. }
      assert (Hd : to_usize dst = BOk dst) by (unfold to_usize; replace (dst <? U64) with true by lia; reflexivity).
      assert (Hr : to_usize src = BOk src) by (unfold to_usize; replace (src <? U64) with true by lia; reflexivity).
      rewrite Hd, Hr. cbn [bbind]. rewrite Hx. cbn [bbind]. rewrite slice_spec by lia. cbn [bbind].
      assert (HL : length (load_range (contents s2) src len) = Z.to_nat len) by (unfold load_range; rewrite map_length, seq_length; reflexivity).
      destruct (write_spec s2 dst (load_range (contents s2) src len)) as (s3 & -> & Hm3 & Hc3); [assumption|rewrite HL; lia|].
      exists s3. split; [reflexivity|]. split; [unfold st_ok; rewrite Hm3; assumption|].
      split; [cbn; rewrite Hm3; exact A|]. split; [cbn; rewrite Hm3; exact B|].
      assert (C' : forall i, 0 <= i -> contents s2 i = contents s i).
      { intros i Hi. cbn in C. rewrite C by assumption. unfold spend in ES. destruct (_ <? _); [discriminate|]. inversion ES. reflexivity. }
      intros i Hi. cbn [e_mem with_mem meaning]. rewrite Hc3 by assumption. rewrite HL, Z2Nat.id by assumption.
      unfold store. destruct ((dst <=? i) && (i <? dst + len)) eqn:E; [|apply C'; assumption].
      unfold load_range. rewrite nth_indep with (d' := contents s2 (src + Z.of_nat 0)) by (rewrite map_length, seq_length; lia).
      rewrite (map_nth (fun k => contents s2 (src + Z.of_nat k)) (seq 0 (Z.to_nat len)) 0%nat). rewrite seq_nth by lia. rewrite C' by lia. f_equal. lia.
    + destruct HE as (e & HE & Hp). revert HE. unfold to_usize.
      destruct (len <? U64); cbn [bbind]; [|intros H; exists e; split; congruence].
      destruct (charge_b s (cc len)); cbn [bbind]; [|intros H; exists e; split; congruence].
      replace (len =? 0) with false by lia.
      destruct (Z.ltb_spec dst U64), (Z.ltb_spec src U64); cbn [bbind]; try (intros _; eexists; split; [reflexivity|discriminate]).
      replace (Z.max dst src <? U64) with true by lia. cbn [bbind].
      destruct (expand a (Z.max dst src) len); cbn [bbind]; intros H'; [discriminate|]. exists e. split; congruence.
Qed.

(** Reading a range, for the builtins that charge [cost] and then use the bytes. *)
Lemma read_does s cost off len (r : bres (list Z * bst)) :
  st_ok s -> 0 <= cost -> is_word off -> is_word len ->
  (r = (do len <- to_usize len; do s <- charge_b s cost;
        if len =? 0 then BOk ([], s) else do off <- to_usize off; do s <- expand s off len; do data <- slice s off len; BOk (data, s))) ->
  yields r (evm_read cost (meaning s) off len).
Proof.
  intros Hs Hcost Hoff Hlen ->.
  assert (Hlen0 : 0 <= len) by (unfold is_word in *; lia).
  assert (Hoff0 : 0 <= off) by (unfold is_word in *; lia).
  unfold evm_read. destruct (Z.eqb_spec len 0) as [->|Hn].
  - unfold spend. cbn [fold_left words_with Z.eqb]. rewrite Z.sub_diag, Z.add_0_r. change (to_usize 0) with (BOk 0). cbn [bbind Z.eqb e_gas meaning].
    destruct (Z.ltb_spec (mm_gas (b_mem s)) cost).
    + unfold charge_b. replace (_ <? cost) with true by lia. eexists. split; [reflexivity|discriminate].
    + destruct (charge_ok s cost Hs Hcost ltac:(lia)) as (s1 & -> & Hs1 & Hg1 & Hw1 & Hc1). cbn [bbind yields].
      exists s1. split; [reflexivity|]. split; [assumption|]. split; [cbn; lia|]. split; [cbn; lia|]. intros i Hi. apply Hc1.
  - pose proof (charge_expand s cost off len Hs Hcost Hoff Hlen ltac:(lia)) as HE.
    destruct (spend _ _ _) as [e'|] eqn:ES.
    + destruct HE as (-> & Hm & s1 & s2 & Hc & Hx & Hs2 & Hsame & Hsz). cbn [bbind]. rewrite Hc. cbn [bbind]. replace (len =? 0) with false by lia.
      rewrite Hm. cbn [bbind]. rewrite Hx. cbn [bbind]. rewrite slice_spec by lia. cbn [bbind].
      exists s2. split; [|split; assumption]. f_equal. f_equal. unfold load_range. apply map_seq_ext. intros k Hk.
      destruct Hsame as (_ & _ & C). cbn in C. rewrite C by lia. unfold spend in ES. destruct (_ <? _); [discriminate|]. inversion ES. reflexivity.
    + destruct HE as (e & HE & Hp). exists e. split; [|assumption]. revert HE. unfold to_usize.
      destruct (len <? U64); cbn [bbind]; [|same_err].
      destruct (charge_b s cost); cbn [bbind]; [|same_err]. replace (len =? 0) with false by lia. destruct (off <? U64); cbn [bbind]; [|same_err].
      destruct (expand a off len); cbn [bbind]; same_err.
Qed.

Lemma charge_0 s : st_ok s -> charge_b s 0 = BOk s.
Proof.
  intros (H & _). destruct s as [[g w p] d]. unfold charge_b, set_mem. cbn in *. replace (g <? 0) with false by lia. rewrite Z.sub_0_r. reflexivity.
Qed.

Lemma return_does s off len : st_ok s -> is_word off -> is_word len -> yields (do_return s off len) (evm_read 0 (meaning s) off len).
Proof.
  intros Hs Ho Hl. apply read_does; try assumption; [lia|]. unfold do_return. destruct (to_usize len); cbn [bbind]; [|reflexivity].
  rewrite charge_0 by assumption. reflexivity.
Qed.

Lemma keccak_does hash cost s off len : st_ok s -> (forall n, 0 <= n -> 0 <= cost n) -> cost 0 = 0 -> is_word off -> is_word len ->
  yields (keccak256 hash cost s off len)
    (match evm_read (cost len) (meaning s) off len with None => None | Some (b, e) => Some (hash b, e) end).
Proof.
  intros Hs Hc H0 Ho Hl. pose proof (read_does s (cost len) off len _ Hs (Hc len ltac:(unfold is_word in *; lia)) Ho Hl eq_refl) as HR.
  unfold keccak256. destruct (Z.eqb_spec len 0) as [->|Hn].
  - rewrite H0 in *. change (to_usize 0) with (BOk 0) in *. cbn [bbind Z.eqb] in *. rewrite charge_0 in HR by assumption. cbn [bbind] in HR.
    destruct (evm_read _ _ _ _) as [[b e]|]; cbn in *.
    + destruct HR as (s' & HE & A & B). injection HE as <- <-. exists s. repeat (split; [first [reflexivity|assumption]|]). assumption.
    + destruct HR as (e & HE & _). discriminate.
  - destruct (evm_read _ _ _ _) as [[b e]|]; cbn [yields] in *.
    + destruct HR as (s' & HE & A & B). exists s'. split; [|split; assumption]. revert HE. unfold to_usize at 1 3. destruct (len <? U64); cbn [bbind]; [|discriminate].
      replace (len =? 0) with false by lia. destruct (charge_b s (cost len)); cbn [bbind]; [|discriminate].
      destruct (to_usize off); cbn [bbind]; [|discriminate]. destruct (expand _ _ _); cbn [bbind]; [|discriminate].
      destruct (slice _ _ _); cbn [bbind]; [|discriminate]. intros H. injection H as <- <-. reflexivity.
    + destruct HR as (e & HE & B). exists e. split; [|assumption]. revert HE. unfold to_usize at 1 3. destruct (len <? U64); cbn [bbind]; [|same_err].
      replace (len =? 0) with false by lia. destruct (charge_b s (cost len)); cbn [bbind]; [|same_err].
      destruct (to_usize off); cbn [bbind]; [|same_err]. destruct (expand _ _ _); cbn [bbind]; [|same_err].
      destruct (slice _ _ _); cbn [bbind]; same_err.
Qed.

Lemma log_does cost s off len topics : st_ok s -> (forall k n, 0 <= n -> 0 <= cost k n) -> is_word off -> is_word len ->
  yields (log_n cost false s off len topics)
    (match evm_read (cost (Z.of_nat (length topics)) len) (meaning s) off len with None => None | Some (b, e) => Some (topics, b, e) end).
Proof.
  intros Hs Hc Ho Hl. pose proof (read_does s (cost (Z.of_nat (length topics)) len) off len _ Hs (Hc _ len ltac:(unfold is_word in *; lia)) Ho Hl eq_refl) as HR.
  unfold log_n. destruct (evm_read _ _ _ _) as [[b e]|]; cbn [yields] in *.
  - destruct HR as (s' & HE & A & B). exists s'. split; [|split; assumption]. revert HE. unfold to_usize at 1 3. destruct (len <? U64); cbn [bbind]; [|discriminate].
    destruct (charge_b s _); cbn [bbind]; [|discriminate]. destruct (len =? 0). { intros H; injection H as <- <-. reflexivity. }
    destruct (to_usize off); cbn [bbind]; [|discriminate]. destruct (expand _ _ _); cbn [bbind]; [|discriminate].
    destruct (slice _ _ _); cbn [bbind]; [|discriminate]. intros H. injection H as <- <-. reflexivity.
  - destruct HR as (e & HE & B). exists e. split; [|assumption]. revert HE. unfold to_usize at 1 3. destruct (len <? U64); cbn [bbind]; [|same_err].
    destruct (charge_b s _); cbn [bbind]; [|same_err]. destruct (len =? 0); [discriminate|].
    destruct (to_usize off); cbn [bbind]; [|same_err]. destruct (expand _ _ _); cbn [bbind]; [|same_err].
    destruct (slice _ _ _); cbn [bbind]; same_err.
Qed.

Lemma nth_eq_ext (l1 l2 : list Z) : length l1 = length l2 -> (forall k, (k < length l1)%nat -> nth k l1 0 = nth k l2 0) -> l1 = l2.
Proof. intros H K. apply nth_ext with (d := 0) (d' := 0); assumption. Qed.

Lemma calldataload_spec off input : 0 <= off -> Z.of_nat (length input) < U64 ->
  calldataload off input = map (fun k => data_at input (off + Z.of_nat k)) (seq 0 32).
Proof.
  intros Ho Hi. assert (HS : map (fun k => data_at input (off + Z.of_nat k)) (seq 0 32) = map (fun k => data_at input (sat_usize off + Z.of_nat k)) (seq 0 32)).
  { apply map_ext. intros k. symmetry. apply data_at_sat; lia. }
  rewrite HS. unfold calldataload. set (o := sat_usize off). assert (Hq : 0 <= o) by (unfold o, sat_usize; destruct consts; lia).
  destruct (Z.ltb_spec o (Z.of_nat (length input))).
  - set (c := Z.to_nat (Z.min 32 (Z.of_nat (length input) - o))). assert (Hc : (c <= 32)%nat) by lia.
    assert (HL : length (firstn c (skipn (Z.to_nat o) input)) = c) by (rewrite firstn_length, skipn_length; lia).
    apply nth_eq_ext.
    + rewrite app_length, HL, repeat_length, map_length, seq_length. lia.
    + rewrite app_length, HL, repeat_length. intros k Hk.
      rewrite (nth_indep (map _ _) 0 (data_at input (o + Z.of_nat 0))) by (rewrite map_length, seq_length; lia).
      rewrite (map_nth (fun k => data_at input (o + Z.of_nat k))), seq_nth by lia. cbn [Nat.add].
      destruct (Nat.lt_ge_cases k c).
      * rewrite app_nth1 by lia. rewrite nth_firstn_in by lia. rewrite nth_skipn_add. unfold data_at.
        replace (_ <? _) with true by lia. f_equal. lia.
      * rewrite app_nth2 by lia. rewrite nth_repeat0. unfold data_at. replace (_ <? _) with false by lia. reflexivity.
  - change (repeat 0 32) with (map (fun _ : nat => 0) (seq 0 32)). apply map_ext. intros k. unfold data_at.
    replace (_ <? _) with false by lia. reflexivity.
Qed.

Lemma blockhash_spec hash number requested : 0 <= requested -> number <= 2 ^ 64 ->
  blockhash hash number requested = match evm_blockhash hash number requested with Some h => BOk h | None => BErr EHost end.
Proof.
  intros Hr Hn. change (2 ^ 64) with U64 in Hn. destruct consts as (EU & _). unfold blockhash, evm_blockhash, sat_usize.
  destruct (Z.ltb_spec number requested).
  - replace (_ && _) with false by lia. reflexivity.
  - destruct (Z.eqb_spec (Z.min (number - requested) (U64 - 1)) 0).
    + replace (_ && _) with false by lia. reflexivity.
    + destruct (Z.leb_spec (Z.min (number - requested) (U64 - 1)) 256).
      * replace (_ && _) with true by lia. rewrite Z.min_l by lia. reflexivity.
      * replace (_ && _) with false by lia. reflexivity.
Qed.

(** ** Calls. *)
Lemma words_with_mono w r : w <= words_with w r.
Proof. destruct r as [o l]. cbn. destruct (l =? 0); lia. Qed.

Lemma frame_range_does s off len : st_ok s -> is_word off -> is_word len ->
  yields (frame_range s off len)
    (match spend (meaning s) 0 [(off, len)] with None => None | Some e => Some (if len =? 0 then None else Some (off, len), e) end).
Proof.
  intros Hs Ho Hl. unfold frame_range. destruct (Z.eqb_spec len 0) as [->|Hn].
  - rewrite spend_empty by assumption. change (to_usize 0) with (BOk 0). cbn [bbind Z.eqb]. exists s. split; [reflexivity|]. split; [assumption|]. apply same_refl.
  - pose proof (charge_expand s 0 off len Hs ltac:(lia) Ho Hl ltac:(unfold is_word in *; lia)) as HE. destruct (spend _ _ _) as [e'|].
    + destruct HE as (-> & Hm & s1 & s2 & Hc & Hx & Hs2 & Hsame & _). rewrite charge_0 in Hc by assumption. injection Hc as <-. cbn [bbind]. replace (len =? 0) with false by lia.
      rewrite Hm. cbn [bbind]. rewrite Hx. cbn [bbind]. exists s2. repeat (split; [first [reflexivity|assumption]|]). assumption.
    + destruct HE as (e & HE & Hp). exists e. split; [|assumption]. revert HE. rewrite charge_0 by assumption. unfold to_usize.
      destruct (len <? U64); cbn [bbind]; [|same_err]. replace (len =? 0) with false by lia. destruct (off <? U64); cbn [bbind]; [|same_err].
      destruct (expand s off len); cbn [bbind]; same_err.
Qed.

Lemma spend_two e r1 r2 c : 0 <= e_words e -> 0 <= c ->
  spend e c [r1; r2] = match spend e 0 [r1] with None => None | Some e1 => match spend e1 0 [r2] with None => None | Some e2 => spend e2 c [] end end.
Proof.
  intros Hw Hc. unfold spend. cbn [fold_left]. set (w1 := words_with (e_words e) r1). set (w2 := words_with w1 r2).
  pose proof (words_with_mono (e_words e) r1). pose proof (words_with_mono w1 r2). fold w1 in H. fold w2 in H0.
  pose proof (C_mem_mono (e_words e) w1 ltac:(lia)). pose proof (C_mem_mono w1 w2 ltac:(lia)).
  destruct (Z.ltb_spec (e_gas e) (0 + (C_mem w1 - C_mem (e_words e)))).
  { replace (_ <? _) with true by lia. reflexivity. }
  cbn [e_gas e_words e_mem].  fold w2.
  destruct (Z.ltb_spec (e_gas e - (0 + (C_mem w1 - C_mem (e_words e)))) (0 + (C_mem w2 - C_mem w1))).
  { replace (_ <? _) with true by lia. reflexivity. }
  cbn [e_gas e_words e_mem]. rewrite Z.sub_diag.
  destruct (Z.ltb_spec (e_gas e - (0 + (C_mem w1 - C_mem (e_words e))) - (0 + (C_mem w2 - C_mem w1))) (c + 0)).
  { replace (_ <? _) with true by lia. reflexivity. }
  replace (_ <? _) with false by lia. f_equal. f_equal. lia.
Qed.

Lemma spend_same e1 e2 c r : same e1 e2 ->
  match spend e2 c r with
  | None => spend e1 c r = None
  | Some e2' => exists e1', spend e1 c r = Some e1' /\ same e1' e2'
  end.
Proof.
  intros (A & B & C). unfold spend. rewrite A, B. destruct (_ <? _); [reflexivity|]. eexists. split; [reflexivity|]. split; [reflexivity|]. split; [reflexivity|]. exact C.
Qed.
Lemma same_trans e1 e2 e3 : same e1 e2 -> same e2 e3 -> same e1 e3.
Proof. intros (A & B & C) (A' & B' & C'). split; [congruence|]. split; [congruence|]. intros i Hi. rewrite C, C' by assumption. reflexivity. Qed.

Lemma charge_does s c : st_ok s -> 0 <= c -> does (charge_b s c) (spend (meaning s) c []).
Proof.
  intros Hs Hc. unfold spend. cbn [fold_left]. rewrite Z.sub_diag, Z.add_0_r. cbn [meaning e_gas].
  destruct (Z.ltb_spec (mm_gas (b_mem s)) c).
  - unfold charge_b. replace (_ <? c) with true by lia. eexists. split; [reflexivity|discriminate].
  - destruct (charge_ok s c Hs Hc ltac:(lia)) as (s1 & -> & Hs1 & Hg1 & Hw1 & Hc1). exists s1. split; [reflexivity|]. split; [assumption|].
    split; [cbn; lia|]. split; [cbn; lia|]. intros i _. apply Hc1.
Qed.

Lemma state_gas_does s res c : st_ok s -> 0 <= res -> 0 <= c ->
  match spend (meaning s) (Z.max 0 (c - res)) [] with
  | None => exists e, state_gas s res c = BErr e /\ e <> EPanic
  | Some e' => exists s', state_gas s res c = BOk (s', Z.max 0 (res - c)) /\ st_ok s' /\ same (meaning s') e'
  end.
Proof.
  intros Hs Hr Hc. unfold state_gas. pose proof (charge_does s (Z.max 0 (c - res)) Hs ltac:(lia)) as HD.
  destruct (Z.leb_spec c res).
  - replace (Z.max 0 (c - res)) with 0 in * by lia. rewrite charge_0 in HD by assumption. replace (Z.max 0 (res - c)) with (res - c) by lia.
    destruct (spend _ _ _); cbn in HD.
    + destruct HD as (s' & HE & A & B). injection HE as <-. exists s. repeat (split; [first [reflexivity|assumption]|]). assumption.
    + destruct HD as (e & HE & _). discriminate.
  - replace (Z.max 0 (c - res)) with (c - res) in * by lia. replace (Z.max 0 (res - c)) with 0 by lia.
    destruct (spend _ _ _); cbn in HD.
    + destruct HD as (s' & -> & A & B). cbn [bbind]. exists s'. repeat (split; [first [reflexivity|assumption]|]). assumption.
    + destruct HD as (e & -> & B). cbn [bbind]. exists e. tauto.
Qed.

Lemma spend_more e a b r : 0 <= e_words e -> 0 <= b ->
  spend e (a + b) r = match spend e a r with None => None | Some e1 => spend e1 b [] end.
Proof.
  intros Hw Hb. unfold spend. set (w := fold_left _ _ _). destruct (Z.ltb_spec (e_gas e) (a + (C_mem w - C_mem (e_words e)))).
  - replace (_ <? _) with true by lia. reflexivity.
  - cbn [fold_left e_gas e_words e_mem]. rewrite Z.sub_diag. 
    destruct (Z.ltb_spec (e_gas e - (a + (C_mem w - C_mem (e_words e)))) (b + 0)).
    + replace (_ <? _) with true by lia. reflexivity.
    + replace (_ <? _) with false by lia. f_equal. f_equal. lia.
Qed.

Lemma forward_does s (tang : bool) red limit g : st_ok s -> 0 < red -> 0 <= limit ->
  g = (if tang then Z.min (mm_gas (b_mem s) - mm_gas (b_mem s) / red) (sat_usize limit) else sat_usize limit) ->
  match forward tang red (mm_gas (b_mem s)) limit with
  | None => exists e, charge_b s g = BErr e /\ e <> EPanic
  | Some (kept, given) => exists s', charge_b s g = BOk s' /\ st_ok s' /\ g = given /\ 0 <= given < 2 ^ 55 /\
      same (meaning s') (mkE kept (mm_words (b_mem s)) (contents s))
  end.
Proof.
  intros Hs Hr Hl Hg. assert (B : 0 <= mm_gas (b_mem s) < 2 ^ 55).
  { destruct Hs as (A & B & C & D). rewrite C in D. pose proof (C_mem_pos _ B). lia. }
  destruct consts as (EU & _ & E55). rewrite E55 in *. unfold forward, sat_usize in *. set (r := mm_gas (b_mem s)) in *.
  assert (Hd : 0 <= r / red <= r). { split; [apply Z.div_pos; lia|]. apply Z.div_le_upper_bound; nia. }
  set (given := if tang then Z.min limit (r - r / red) else limit).
  destruct (Z.ltb_spec r given) as [Hx|Hx].
  - assert (r < g) by (unfold given in *; destruct tang; lia). unfold charge_b. fold r. replace (r <? g) with true by lia. eexists. split; [reflexivity|discriminate].
  - assert (g = given) by (unfold given in *; destruct tang; lia).
    assert (0 <= given) by (unfold given; destruct tang; lia).
    destruct (charge_ok s g Hs ltac:(lia) ltac:(lia)) as (s1 & -> & Hs1 & Hg1 & Hw1 & Hc1). exists s1. split; [reflexivity|]. split; [assumption|]. split; [assumption|].
    split; [lia|]. split; [cbn; lia|]. split; [cbn; assumption|]. intros i _. apply Hc1.
Qed.

Definition moves (kind : call_kind) (value : Z) : bool := match kind with KCall | KCallCode => negb (value =? 0) | _ => false end.

Lemma st_words s : st_ok s -> 0 <= e_words (meaning s).
Proof. intros (_ & H & _). exact H. Qed.

Lemma call_does gp tang load fr kind s res limit to value io il oo ol :
  st_ok s -> 0 <= res -> 0 <= gp_transfer gp -> 0 <= gp_stipend gp < 2 ^ 32 -> 0 < gp_reduction gp ->
  (forall g d st, load g = Some (d, st) -> 0 <= d /\ 0 <= st) ->
  is_word limit -> is_word value -> is_word io -> is_word il -> is_word oo -> is_word ol ->
  let r := builtin_call gp tang load fr kind s res limit to value io il oo ol in
  if kind_eqb kind KCall && fr_static fr && moves kind value then r = BErr EStatic
  else match evm_call tang (gp_reduction gp) (gp_transfer gp) load (meaning s) res (moves kind value) limit [(io, il); (oo, ol)] with
  | None => exists e, r = BErr e /\ e <> EPanic
  | Some (e', given, res') => exists ci s', r = BOk (ci, s') /\ st_ok s' /\ same (meaning s') e' /\
      ci_gas ci = given + (if moves kind value then gp_stipend gp else 0) /\ ci_reservoir ci = res' /\
      ci_input ci = (if il =? 0 then None else Some (io, il)) /\ ci_output ci = (if ol =? 0 then None else Some (oo, ol)) /\
      ci_code ci = to /\
      ci_target ci = (match kind with KDelegateCall | KCallCode => fr_target fr | _ => to end) /\
      ci_caller ci = (if kind_eqb kind KDelegateCall then fr_caller fr else fr_target fr) /\
      ci_value ci = (match kind with KDelegateCall => fr_value fr | KStaticCall => 0 | _ => value end) /\
      ci_apparent ci = kind_eqb kind KDelegateCall /\
      ci_static ci = (fr_static fr || kind_eqb kind KStaticCall)
  end.
Proof.
  intros Hs Hres Htr Hst Hred Hload Hli Hva Hio Hil Hoo Hol r. unfold r, builtin_call.
  set (hv := match kind with KCall | KCallCode => true | _ => false end).
  assert (Hmv : negb ((if hv then value else 0) =? 0) = moves kind value).
  { unfold hv, moves. destruct kind; try reflexivity. }
  rewrite Hmv. destruct (kind_eqb kind KCall && fr_static fr && moves kind value); [reflexivity|].
  unfold evm_call.
  assert (Hmc : 0 <= (if moves kind value then gp_transfer gp else 0)) by (destruct (moves kind value); lia).
  rewrite spend_two by (try apply st_words; assumption).
  pose proof (frame_range_does s io il Hs Hio Hil) as H1.
  destruct (spend (meaning s) 0 [(io, il)]) as [e1|]; cbn [yields] in H1.
  2:{ destruct H1 as (e & -> & Hp). exists e. split; [reflexivity|assumption]. }
  destruct H1 as (s1 & -> & Hs1 & Hsame1). cbn [bbind].
  pose proof (frame_range_does s1 oo ol Hs1 Hoo Hol) as H2.
  pose proof (spend_same _ _ 0 [(oo, ol)] Hsame1) as HS. destruct (spend e1 0 [(oo, ol)]) as [e2|].
  2:{ rewrite HS in H2. destruct H2 as (e & -> & Hp). exists e. split; [reflexivity|assumption]. }
  destruct HS as (e1' & HS & Hsame2). rewrite HS in H2. cbn [yields] in H2. destruct H2 as (s2 & -> & Hs2 & Hsame2'). cbn [bbind].
  pose proof (same_trans _ _ _ Hsame2' Hsame2) as Hsm2. clear Hsame2 Hsame2' HS.
  (* value transfer *)
  assert (H3 : does (if moves kind value then charge_b s2 (gp_transfer gp) else BOk s2) (spend (meaning s2) (if moves kind value then gp_transfer gp else 0) [])).
  { destruct (moves kind value); [apply charge_does; assumption|]. rewrite <- (charge_0 s2 Hs2). apply charge_does; [assumption|lia]. }
  pose proof (spend_same _ _ (if moves kind value then gp_transfer gp else 0) [] Hsm2) as HS. destruct (spend e2 _ []) as [e3|].
  2:{ rewrite HS in H3. destruct H3 as (e & -> & Hp). exists e. split; [reflexivity|assumption]. }
  destruct HS as (e3' & HS & Hsame3). rewrite HS in H3. destruct H3 as (s3 & -> & Hs3 & Hsame3'). cbn [bbind].
  pose proof (same_trans _ _ _ Hsame3' Hsame3) as Hsm3. clear Hsame3 Hsame3' HS.
  (* the callee *)
  replace (e_gas e3) with (mm_gas (b_mem s3)) by (destruct Hsm3 as (A & _); exact A).
  destruct (load (mm_gas (b_mem s3))) as [[dyn st]|] eqn:EL.
  2:{ eexists. split; [reflexivity|discriminate]. }
  destruct (Hload _ _ _ EL) as [Hdyn Hstc].
  assert (Hw3 : 0 <= e_words e3) by (destruct Hsm3 as (_ & B & _); rewrite <- B; apply st_words; assumption).
  rewrite (spend_more e3) by (assumption || lia).
  pose proof (charge_does s3 dyn Hs3 Hdyn) as H4. pose proof (spend_same _ _ dyn [] Hsm3) as HS. destruct (spend e3 dyn []) as [e4|].
  2:{ rewrite HS in H4. destruct H4 as (e & -> & Hp). exists e. split; [reflexivity|assumption]. }
  destruct HS as (e4' & HS & Hsame4). rewrite HS in H4. destruct H4 as (s4 & -> & Hs4 & Hsame4'). cbn [bbind].
  pose proof (same_trans _ _ _ Hsame4' Hsame4) as Hsm4. clear Hsame4 Hsame4' HS.
  pose proof (state_gas_does s4 res st Hs4 Hres Hstc) as H5. pose proof (spend_same _ _ (Z.max 0 (st - res)) [] Hsm4) as HS. destruct (spend e4 _ []) as [e5|].
  2:{ rewrite HS in H5. destruct H5 as (e & -> & Hp). exists e. split; [reflexivity|assumption]. }
  destruct HS as (e5' & HS & Hsame5). rewrite HS in H5. destruct H5 as (s5 & -> & Hs5 & Hsame5'). cbn [bbind].
  pose proof (same_trans _ _ _ Hsame5' Hsame5) as Hsm5. clear Hsame5 Hsame5' HS.
  (* the gas given away *)
  replace (e_gas e5) with (mm_gas (b_mem s5)) by (destruct Hsm5 as (A & _); exact A).
  unfold call_stipend_reduction.
  pose proof (forward_does s5 tang (gp_reduction gp) limit _ Hs5 Hred ltac:(unfold is_word in *; lia) eq_refl) as H6.
  destruct (forward _ _ _ _) as [[kept given]|].
  2:{ destruct H6 as (e & -> & Hp). exists e. split; [reflexivity|assumption]. }
  destruct H6 as (s6 & -> & Hs6 & Hgv & Hgb & Hsame6). cbn [bbind]. rewrite Hgv.
  eexists. exists s6. split; [reflexivity|]. split; [assumption|].
  split. { apply (same_trans _ _ _ Hsame6). destruct Hsm5 as (A & B & C). split; [reflexivity|]. split; [exact B|exact C]. }
  cbn [ci_gas ci_reservoir ci_input ci_output ci_code ci_target ci_caller ci_value ci_apparent ci_static].
  split.
  { destruct consts as (EU & _ & E55). unfold hv. unfold moves in *. destruct kind; cbn [andb]; try lia;
    (destruct (negb (value =? 0)); [unfold sat_usize; rewrite EU; change (2 ^ 32) with 4294967296 in *; rewrite E55 in *; lia|lia]). }
  repeat (split; [reflexivity|]). split; [|split; reflexivity]. unfold hv. destruct kind; reflexivity.
Qed.

Lemma create_does gp tang shanghai max_init sc fr s res value off len salt :
  st_ok s -> 0 <= res -> 0 <= sc -> (forall n, 0 <= n -> 0 <= gp_initcode gp n) -> gp_initcode gp 0 = 0 -> 0 <= gp_create gp -> (forall n, 0 <= n -> 0 <= gp_create2 gp n) ->
  0 < gp_reduction gp -> 0 <= max_init -> is_word value -> is_word off -> is_word len ->
  let r := builtin_create gp tang shanghai max_init sc fr s res value off len salt in
  let price := (if shanghai then gp_initcode gp len else 0) + (match salt with Some _ => gp_create2 gp len | None => gp_create gp end) in
  if fr_static fr || (shanghai && (max_init <? len)) then exists e, r = BErr e /\ e <> EPanic
  else match evm_create tang (gp_reduction gp) price sc (meaning s) res off len with
  | None => exists e, r = BErr e /\ e <> EPanic
  | Some (e', given, res', code) => exists s', r = BOk (mkCR (fr_target fr) salt value code given res', s') /\ st_ok s' /\ same (meaning s') e'
  end.
Proof.
  intros Hs Hres Hsc Hic H0 Hcr Hcr2 Hred Hmax Hva Hoff Hlen r price. unfold r, builtin_create.
  assert (Hl0 : 0 <= len) by (unfold is_word in *; lia).
  destruct (fr_static fr); cbn [orb]. { eexists. split; [reflexivity|discriminate]. }
  set (ic := if shanghai then gp_initcode gp len else 0) in *.
  assert (Hic0 : 0 <= ic) by (unfold ic; destruct shanghai; [apply Hic; assumption|lia]).
  set (cc := match salt with Some _ => gp_create2 gp len | None => gp_create gp end) in *.
  assert (Hcc : 0 <= cc) by (unfold cc; destruct salt; [apply Hcr2; assumption|assumption]).
  (* the init code *)
  destruct (shanghai && (max_init <? len)) eqn:EB.
  { apply andb_prop in EB. destruct EB as [-> EB]. assert (len <> 0) by lia. unfold to_usize. destruct (Z.ltb_spec len U64); cbn [bbind].
    - replace (len =? 0) with false by lia. cbn [bbind]. rewrite EB. eexists. split; [reflexivity|discriminate].
    - eexists. split; [reflexivity|discriminate]. }
  assert (HP : yields (do len <- to_usize len;
      if len =? 0 then BOk ([], s)
      else
        do s <- (if shanghai then if max_init <? len then BErr EInitCodeSize else charge_b s (gp_initcode gp len) else BOk s);
        do code_offset <- to_usize off; do s <- expand s code_offset len; do code <- slice s code_offset len; BOk (code, s))
     (evm_read ic (meaning s) off len)).
  { apply read_does; try assumption. unfold to_usize at 1 3. destruct (len <? U64); cbn [bbind]; [|reflexivity].
    destruct (Z.eqb_spec len 0) as [->|Hn].
    - replace ic with 0 by (unfold ic; destruct shanghai; congruence). rewrite charge_0 by assumption. reflexivity.
    - unfold ic. destruct shanghai; cbn [andb] in EB; [rewrite EB; reflexivity|]. rewrite charge_0 by assumption. reflexivity. }
  unfold evm_create. unfold price. rewrite <- Z.add_assoc.
  rewrite (spend_more (meaning s) ic) by (try apply st_words; assumption || lia).
  unfold evm_read in HP. destruct (spend (meaning s) ic [(off, len)]) as [e1|] eqn:ES1.
  2:{ destruct HP as (e & HP & Hp). revert HP. destruct (to_usize len) as [l|]; cbn [bbind]; [|intros HP; injection HP as ->; exists e; tauto].
      match goal with |- ?x = _ -> _ => destruct x end; cbn [bbind]; [discriminate|]. intros HP; injection HP as ->. exists e. tauto. }
  destruct HP as (s1 & HP & Hs1 & Hsame1).
  assert (Hlu : to_usize len = BOk len). { revert HP. unfold to_usize. destruct (len <? U64); cbn [bbind]; [reflexivity|discriminate]. }
  rewrite Hlu in *. cbn [bbind] in *. rewrite HP. cbn [bbind]. fold cc.
  assert (Hw1 : 0 <= e_words e1) by (destruct Hsame1 as (_ & B & _); rewrite <- B; apply st_words; assumption).
  rewrite (spend_more e1 cc) by (assumption || lia).
  pose proof (charge_does s1 cc Hs1 Hcc) as H2. pose proof (spend_same _ _ cc [] Hsame1) as HS. destruct (spend e1 cc []) as [e2|].
  2:{ rewrite HS in H2. destruct H2 as (e & -> & Hp). exists e. split; [reflexivity|assumption]. }
  destruct HS as (e2' & HS & Hsame2). rewrite HS in H2. destruct H2 as (s2 & -> & Hs2 & Hsame2'). cbn [bbind].
  pose proof (same_trans _ _ _ Hsame2' Hsame2) as Hsm2. clear Hsame2 Hsame2' HS.
  pose proof (state_gas_does s2 res sc Hs2 Hres Hsc) as H3. pose proof (spend_same _ _ (Z.max 0 (sc - res)) [] Hsm2) as HS. destruct (spend e2 _ []) as [e3|].
  2:{ rewrite HS in H3. destruct H3 as (e & -> & Hp). exists e. split; [reflexivity|assumption]. }
  destruct HS as (e3' & HS & Hsame3). rewrite HS in H3. destruct H3 as (s3 & -> & Hs3 & Hsame3'). cbn [bbind].
  pose proof (same_trans _ _ _ Hsame3' Hsame3) as Hsm3. clear Hsame3 Hsame3' HS.
  replace (e_gas e3) with (mm_gas (b_mem s3)) by (destruct Hsm3 as (A & _); exact A).
  assert (B : 0 <= mm_gas (b_mem s3) < 2 ^ 55).
  { destruct Hs3 as (A & B & C & D). rewrite C in D. pose proof (C_mem_pos _ B). lia. }
  set (g := mm_gas (b_mem s3)) in *.
  assert (Hd : 0 <= g / gp_reduction gp <= g). { split; [apply Z.div_pos; lia|]. apply Z.div_le_upper_bound; nia. }
  pose proof (forward_does s3 tang (gp_reduction gp) g (if tang then call_stipend_reduction gp g else g) Hs3 Hred ltac:(lia)) as H6.
  fold g in H6. destruct (forward _ _ _ _) as [[kept given]|].
  2:{ destruct H6 as (e & -> & Hp). { destruct consts as (EU & _ & E55). unfold call_stipend_reduction, sat_usize. rewrite E55 in *. destruct tang; lia. }
      exists e. split; [reflexivity|assumption]. }
  destruct H6 as (s6 & -> & Hs6 & Hgv & Hgb & Hsame6). { destruct consts as (EU & _ & E55). unfold call_stipend_reduction, sat_usize. rewrite E55 in *. destruct tang; lia. }
  cbn [bbind]. rewrite Hgv. exists s6. split; [reflexivity|]. split; [assumption|].
  apply (same_trans _ _ _ Hsame6). destruct Hsm3 as (A & B' & C). split; [reflexivity|]. split; [exact B'|exact C].
Qed.
