(** Lemmas about block deduplication. *)
From Verif Require Import DedupModel ProgramModel OpcodeSpec OpcodeProof FlowSpec CfgProof ArithSpec BlockProof ProgramProof AnalysisProof DemoTables.
From Coq Require Import ZifyBool Permutation Sorted.
Open Scope Z_scope.

(** ** Fingerprints. *)
Definition imm_bytes (d : idata) : list Z := if (0 <? min_imm_len (d_op d))%nat then strip0 (le_bytes4 (d_data d)) else [].
Definition is_inline (n : nat) (d : idata) : Prop := exists v, 0 <= v < 256 ^ Z.of_nat n /\ d_data d = 2 ^ 31 + v.

(** Instructions whose immediate is printed unambiguously: one- and two-byte immediates, and longer ones
    whose handle does not have a zero low byte. *)
Definition clear_imm (d : idata) : Prop :=
  match min_imm_len (d_op d) with
  | O => True
  | 1%nat => is_inline 1 d
  | 2%nat => is_inline 2 d
  | _ => d_data d mod 256 <> 0 /\ 0 <= d_data d < 2 ^ 32
  end.

Lemma strip0_head l : match strip0 l with [] => True | x :: _ => x <> 0 end.
Proof. induction l as [|x l IH]; cbn; auto. destruct (Z.eqb_spec x 0); auto. Qed.
Lemma imm_bytes_head d : match imm_bytes d with [] => True | x :: _ => x <> 0 end.
Proof. unfold imm_bytes. destruct (_ <? _)%nat; [apply strip0_head|exact I]. Qed.

Lemma bytes1 d : is_inline 1 d -> exists v, 0 <= v < 256 /\ d_data d = 2 ^ 31 + v /\ le_bytes4 (d_data d) = [v; 0; 0; 128].
Proof.
  intros (v & Hv & E). exists v. change (256 ^ Z.of_nat 1) with 256 in Hv. split; [exact Hv|]. split; [exact E|].
  unfold le_bytes4. rewrite E. change (2 ^ 31) with 2147483648.
  replace ((2147483648 + v) mod 256) with v by (symmetry; replace (2147483648 + v) with (v + 8388608 * 256) by lia; rewrite Z_mod_plus_full; apply Z.mod_small; lia).
  replace ((2147483648 + v) / 256) with 8388608 by (symmetry; replace (2147483648 + v) with (v + 8388608 * 256) by lia; rewrite Z.div_add, Z.div_small; lia).
  replace ((2147483648 + v) / 65536) with 32768 by (symmetry; replace (2147483648 + v) with (v + 32768 * 65536) by lia; rewrite Z.div_add, Z.div_small; lia).
  replace ((2147483648 + v) / 16777216) with 128 by (symmetry; replace (2147483648 + v) with (v + 128 * 16777216) by lia; rewrite Z.div_add, Z.div_small; lia).
  reflexivity.
Qed.
Lemma bytes2 d : is_inline 2 d -> exists a b, 0 <= a < 256 /\ 0 <= b < 256 /\ d_data d = 2 ^ 31 + a + 256 * b /\ le_bytes4 (d_data d) = [a; b; 0; 128].
Proof.
  intros (v & Hv & E). exists (v mod 256), (v / 256). change (256 ^ Z.of_nat 2) with 65536 in Hv.
  pose proof (Z.mod_pos_bound v 256 ltac:(lia)). pose proof (Z.div_mod v 256 ltac:(lia)) as DM.
  assert (0 <= v / 256 < 256) by (split; [apply Z.div_pos; lia|apply Z.div_lt_upper_bound; lia]).
  split; [lia|]. split; [lia|]. split; [lia|].
  unfold le_bytes4. rewrite E. change (2 ^ 31) with 2147483648.
  remember (v mod 256) as a. remember (v / 256) as b. clear Heqa Heqb. subst v.
  replace ((2147483648 + (256 * b + a)) mod 256) with a by (symmetry; replace (2147483648 + (256 * b + a)) with (a + (8388608 + b) * 256) by lia; rewrite Z_mod_plus_full; apply Z.mod_small; lia).
  replace ((2147483648 + (256 * b + a)) / 256) with (b + 32768 * 256) by (symmetry; replace (2147483648 + (256 * b + a)) with (a + (b + 32768 * 256) * 256) by lia; rewrite Z.div_add, Z.div_small; lia).
  replace ((2147483648 + (256 * b + a)) / 65536) with 32768 by (symmetry; replace (2147483648 + (256 * b + a)) with (256 * b + a + 32768 * 65536) by lia; rewrite Z.div_add, Z.div_small; lia).
  replace ((2147483648 + (256 * b + a)) / 16777216) with 128 by (symmetry; replace (2147483648 + (256 * b + a)) with (256 * b + a + 128 * 16777216) by lia; rewrite Z.div_add, Z.div_small; lia).
  rewrite Z_mod_plus_full, (Z.mod_small b) by lia. reflexivity.
Qed.
Lemma le_bytes4_inj v w : 0 <= v < 2 ^ 32 -> 0 <= w < 2 ^ 32 -> le_bytes4 v = le_bytes4 w -> v = w.
Proof.
  change (2 ^ 32) with 4294967296. unfold le_bytes4. intros Hv Hw E. injection E as E1 E2 E3 E4.
  assert (X : forall z, 0 <= z < 4294967296 ->
    z = z mod 256 + 256 * ((z / 256) mod 256) + 65536 * ((z / 65536) mod 256) + 16777216 * ((z / 16777216) mod 256)).
  { intros z Hz.
    pose proof (Z.div_mod z 256 ltac:(lia)). pose proof (Z.div_mod (z / 256) 256 ltac:(lia)).
    pose proof (Z.div_mod (z / 65536) 256 ltac:(lia)).
    assert (z / 256 / 256 = z / 65536) by (rewrite Z.div_div by lia; reflexivity).
    assert (z / 65536 / 256 = z / 16777216) by (rewrite Z.div_div by lia; reflexivity).
    assert ((z / 16777216) mod 256 = z / 16777216) by (apply Z.mod_small; split; [apply Z.div_pos; lia|apply Z.div_lt_upper_bound; lia]).
    lia. }
  rewrite (X v Hv), (X w Hw). congruence.
Qed.

(** What may follow an instruction in a block's fingerprint: STOP (0) only as the last byte of the
    block, immediates never start with 0. *)
Definition tail_ok (R : list Z) : Prop :=
  (forall a l, R <> 0 :: a :: l) /\ (forall y a l, R <> y :: 0 :: a :: l).

Lemma imm_split d1 d2 R1 R2 : d_op d1 = d_op d2 -> clear_imm d1 -> clear_imm d2 -> tail_ok R1 -> tail_ok R2 ->
  imm_bytes d1 ++ R1 = imm_bytes d2 ++ R2 -> ((0 < min_imm_len (d_op d1))%nat -> d_data d1 = d_data d2) /\ R1 = R2.
Proof.
  intros Eo C1 C2 [T1 T1'] [T2 T2']. unfold imm_bytes, clear_imm in *. rewrite <- Eo in *.
  destruct (min_imm_len (d_op d1)) as [|[|[|n]]] eqn:M; cbn [Nat.ltb Nat.leb].
  - cbn. intros ->. split; [lia|reflexivity].
  - destruct (bytes1 _ C1) as (v & Hv & E1 & B1). destruct (bytes1 _ C2) as (w & Hw & E2 & B2). rewrite B1, B2.
    cbn [strip0]. change (0 =? 0) with true. change (128 =? 0) with false.
    destruct (Z.eqb_spec v 0), (Z.eqb_spec w 0); cbn [app]; intros E; injection E.
    + intros ->. split; [intros; lia|reflexivity].
    + intros E' _. exfalso. eapply T1. exact E'.
    + intros E' _. exfalso. eapply T2. symmetry. exact E'.
    + intros -> ->. split; [intros; lia|reflexivity].
  - destruct (bytes2 _ C1) as (a & b & Ha & Hb & E1 & B1). destruct (bytes2 _ C2) as (a' & b' & Ha' & Hb' & E2 & B2). rewrite B1, B2.
    cbn [strip0]. change (0 =? 0) with true. change (128 =? 0) with false.
    destruct (Z.eqb_spec a 0), (Z.eqb_spec a' 0), (Z.eqb_spec b 0), (Z.eqb_spec b' 0); cbn [app]; intros E; injection E; intros; subst;
      try (split; [intros; lia|congruence]); try discriminate; exfalso;
      solve [eapply T1; eassumption | eapply T2; symmetry; eassumption | eapply T1'; eassumption | eapply T2'; symmetry; eassumption
            | eapply T1; eauto | eapply T2; eauto | eapply T1'; eauto | eapply T2'; eauto | lia].
  - destruct C1 as [N1 D1], C2 as [N2 D2].
    assert (S1 : strip0 (le_bytes4 (d_data d1)) = le_bytes4 (d_data d1)) by (unfold le_bytes4; cbn [strip0]; destruct (Z.eqb_spec (d_data d1 mod 256) 0); [congruence|reflexivity]).
    assert (S2 : strip0 (le_bytes4 (d_data d2)) = le_bytes4 (d_data d2)) by (unfold le_bytes4; cbn [strip0]; destruct (Z.eqb_spec (d_data d2 mod 256) 0); [congruence|reflexivity]).
    rewrite S1, S2. intros E.
    assert (X : le_bytes4 (d_data d1) = le_bytes4 (d_data d2) /\ R1 = R2).
    { unfold le_bytes4 in E |- *. cbn [app] in E. injection E. intros. split; [congruence|assumption]. }
    destruct X as [X ->]. split; [|reflexivity]. intros _. apply le_bytes4_inj; assumption.
Qed.

Definition prints (l : list idata) : list Z := flat_map inst_print l.
Lemma inst_print_eq d : inst_print d = d_op d :: imm_bytes d. Proof. reflexivity. Qed.

(** STOP is only the last instruction. *)
Fixpoint stop_last (l : list idata) : Prop :=
  match l with
  | [] => True
  | d :: l' => (d_op d = 0 -> l' = []) /\ stop_last l'
  end.
Lemma imm_bytes_nonempty d : clear_imm d -> (0 < min_imm_len (d_op d))%nat -> imm_bytes d <> [].
Proof.
  unfold imm_bytes, clear_imm. destruct (min_imm_len (d_op d)) as [|[|[|n]]]; cbn [Nat.ltb Nat.leb]; intros C H; try lia.
  - destruct (bytes1 _ C) as (v & _ & _ & ->). cbn. destruct (v =? 0); discriminate.
  - destruct (bytes2 _ C) as (a & b & _ & _ & _ & ->). cbn. destruct (a =? 0), (b =? 0); discriminate.
  - destruct C as [N _]. unfold le_bytes4. cbn [strip0]. destruct (Z.eqb_spec (d_data d mod 256) 0); [congruence|discriminate].
Qed.
Lemma prints_tail l : Forall clear_imm l -> stop_last l -> tail_ok (prints l).
Proof.
  intros C SL. destruct l as [|d l]; cbn [prints flat_map].
  { split; discriminate. }
  inversion C as [|? ? Cd Cl]; subst. destruct SL as [S1 S2]. rewrite inst_print_eq. cbn [app].
  assert (Z0 : forall l', d_op d = 0 -> imm_bytes d ++ prints l = l' -> l' = []).
  { intros l' E <-. rewrite (S1 E). cbn. rewrite app_nil_r. unfold imm_bytes. rewrite E. reflexivity. }
  split.
  - intros a r E. injection E as E1 E2. pose proof (Z0 _ E1 E2). discriminate.
  - intros y a r E. injection E as _ E2. fold (prints l) in E2. pose proof (imm_bytes_head d) as H. destruct (imm_bytes d) as [|x xs] eqn:Ei.
    + cbn in E2. destruct l as [|d1 l1]; [discriminate|]. cbn [prints flat_map] in E2. rewrite inst_print_eq in E2. cbn in E2.
      injection E2 as E3 E4. destruct S2 as [S2 _]. specialize (S2 E3). subst l1. cbn in E4. rewrite app_nil_r in E4.
      unfold imm_bytes in E4. rewrite E3 in E4. cbn in E4. discriminate.
    + cbn in E2. injection E2 as E3 _. congruence.
Qed.

(** The opcode and the immediate of an instruction. *)
Definition alike (d1 d2 : idata) : Prop := d_op d1 = d_op d2 /\ ((0 < min_imm_len (d_op d1))%nat -> d_data d1 = d_data d2).
Lemma prints_inj : forall l1 l2, Forall clear_imm l1 -> Forall clear_imm l2 -> stop_last l1 -> stop_last l2 ->
  prints l1 = prints l2 -> Forall2 alike l1 l2.
Proof.
  induction l1 as [|d1 l1 IH]; intros [|d2 l2] C1 C2 S1 S2 E; cbn [prints flat_map] in E.
  - constructor.
  - rewrite inst_print_eq in E. discriminate.
  - rewrite inst_print_eq in E. discriminate.
  - rewrite !inst_print_eq in E. cbn [app] in E. injection E as Eo E.
    inversion C1; inversion C2; subst. destruct S1 as [_ S1], S2 as [_ S2].
    destruct (imm_split d1 d2 _ _ Eo H1 H5 (prints_tail l1 H2 S1) (prints_tail l2 H6 S2) E) as [D R].
    constructor; [split; assumption|]. apply IH; assumption.
Qed.

(** ** Handles of a parsed bytecode. *)
Definition data_inv (code : list Z) (st : pstate) : Prop :=
  forall ins, In ins (p_insts st) -> has_imm_data (i_op ins) = true ->
    0 <= i_data ins < 2 ^ 32 /\
    exists v, 0 <= v < 256 ^ Z.of_nat (min_imm_len (i_op ins)) /\ (v < 2 ^ 31 -> i_data ins = 2 ^ 31 + v).
Lemma imm_new_data v i i' h : 0 <= v -> imm_new v i = (i', h) -> 0 <= h < 2 ^ 32 /\ (v < 2 ^ 31 -> h = 2 ^ 31 + v).
Proof.
  intros Hv. unfold imm_new. destruct (Z.ltb_spec v INLINE_TAG) as [Hl|Hl]; intros E.
  - apply pair_equal_spec in E as [_ <-]. unfold INLINE_TAG in Hl. rewrite OpcodeProof.lor_tag by auto. split; [|reflexivity].
    assert (2 ^ 32 = 2 ^ 31 + 2 ^ 31) by reflexivity. lia.
  - destruct (intern i v) as [i'' k]. apply pair_equal_spec in E as [_ <-]. split; [apply Z.mod_pos_bound; reflexivity|].
    unfold INLINE_TAG in Hl. lia.
Qed.
Lemma data_inv_step tbl io code st st' : Forall is_byte code -> data_inv code st -> parse_step tbl io code st = Some st' -> data_inv code st'.
Proof.
  intros B D Hstep. unfold parse_step in Hstep.
  destruct (iter_next_pc tbl _) as [[[pc o] [rest' pc']]|]; [|discriminate]. cbn zeta in Hstep.
  match type of Hstep with context [let '(_, _) := ?x in _] => destruct x as [int' data] eqn:Edt end.
  assert (Hins : p_insts st' = p_insts st ++ [mkInst pc (opc o) (tbl (opc o)) (if tbl (opc o) then compute_stack_io io (opc o) (immediate o) else (0, 0)) data]).
  { destruct (is_8024 (opc o) && tbl (opc o) && imm_is_jumpdest o); injection Hstep as <-; reflexivity. }
  intros ins Hin Hh. rewrite Hins in Hin. apply in_app_or in Hin as [Hin|[<- |[]]]; [apply D; assumption|].
  cbn [i_op i_data] in *. rewrite Hh in Edt.
  rewrite OpcodeProof.imm_value_eq in Edt. fold (evm_push_value code pc (min_imm_len (opc o))) in Edt.
  pose proof (push_value_range code pc (min_imm_len (opc o)) B) as HV.
  set (v := evm_push_value code pc (min_imm_len (opc o))) in *. clearbody v.
  destruct (imm_new_data _ _ _ _ (proj1 HV) Edt) as [R1 R2]. split; [exact R1|]. exists v. split; [exact HV|exact R2].
Qed.
Lemma parse_data tbl io code st : Forall is_byte code -> parse tbl io code = Some st -> data_inv code st.
Proof.
  intros B H. eapply (parse_loop_inv (data_inv code)); [|..|exact H].
  - intros s s' Hs Hst. eapply data_inv_step; eauto.
  - intros ins [].
Qed.

(** Instructions of a loaded program with the same opcode and immediate behave alike. *)
Section Uniform.
  Context (info : Z -> opinfo) (stack_io : Z -> Z * Z) (code : list Z) (key : Z -> Z) (lim : Z).
  Hypothesis BYTES : Forall is_byte code.
  Hypothesis LEN : Z.of_nat (length code) < 2 ^ 31.
  Variables (env : aenv) (prog : list idata).
  Hypothesis LD : load info stack_io key lim code = Some (env, prog).

  Lemma load_parse : exists st, parse (active_of info) stack_io code = Some st /\ env = program_env code st key lim /\
    prog = pad_insts (map (idata_of info) (p_insts st)).
  Proof.
    unfold load in LD. destruct (parse (active_of info) stack_io code) as [st|]; [|discriminate].
    exists st. split; [reflexivity|]. split; congruence.
  Qed.
  Lemma imm_has op : (0 < min_imm_len op)%nat -> has_imm_data op = true.
  Proof. unfold min_imm_len, has_imm_data, OP_PUSH0, OP_PUSH32, OP_DUPN, OP_EXCHANGE. destruct ((0x60 <=? op) && (op <=? 0x7f)) eqn:E1; [lia|]. destruct ((0xe6 <=? op) && (op <=? 0xe8)) eqn:E2; lia. Qed.

  Lemma load_inline i d n : nth_error prog i = Some d -> min_imm_len (d_op d) = n -> (n = 1 \/ n = 2)%nat -> is_inline n d.
  Proof.
    destruct load_parse as (st & P & -> & ->). intros H M Hn.
    destruct (pad_nth _ _ _ _ H) as [(ins & Hi & ->)|[_ ->]]; [|cbn in M; lia]. cbn [d_op idata_of] in M.
    destruct (parse_data _ _ _ _ BYTES P ins (nth_error_In _ _ Hi)) as (_ & v & Hv & E); [apply imm_has; lia|].
    rewrite M in Hv. exists v. split; [exact Hv|]. cbn [d_data idata_of]. apply E.
    destruct Hn as [-> | ->]; [change (256 ^ Z.of_nat 1) with 256 in Hv|change (256 ^ Z.of_nat 2) with 65536 in Hv]; change (2 ^ 31) with 2147483648; lia.
  Qed.
  Lemma load_range i d : nth_error prog i = Some d -> (0 < min_imm_len (d_op d))%nat -> 0 <= d_data d < 2 ^ 32.
  Proof.
    destruct load_parse as (st & P & -> & ->). intros H M.
    destruct (pad_nth _ _ _ _ H) as [(ins & Hi & ->)|[_ ->]]; [|cbn in M; lia]. cbn [d_op idata_of] in M.
    destruct (parse_data _ _ _ _ BYTES P ins (nth_error_In _ _ Hi)) as (R & _); [apply imm_has; lia|]. exact R.
  Qed.

  Lemma load_uniform i j d1 d2 : nth_error prog i = Some d1 -> nth_error prog j = Some d2 -> alike d1 d2 -> d_op d1 <> 0 ->
    d_io d1 = d_io d2 /\ f_disabled (d_flags d1) = f_disabled (d_flags d2) /\ f_unknown (d_flags d1) = f_unknown (d_flags d2) /\
    (has_imm_data (d_op d1) = true -> a_const env i = a_const env j).
  Proof.
    destruct load_parse as (st & P & -> & ->). intros H1 H2 [Eo Ed] NZ.
    destruct (pad_nth _ _ _ _ H1) as [(i1 & N1 & ->)|[_ ->]]; [|exfalso; apply NZ; reflexivity].
    destruct (pad_nth _ _ _ _ H2) as [(i2 & N2 & ->)|[_ ->]]; [|exfalso; apply NZ; exact Eo].
    cbn [d_op d_io d_flags d_data idata_of f_disabled f_unknown] in *.
    assert (C : has_imm_data (i_op i1) = true -> inst_const (p_int st) i1 = inst_const (p_int st) i2).
    { intros Hh. destruct (Nat.eq_dec (min_imm_len (i_op i1)) 0) as [Z0|].
      - rewrite (const_of info stack_io code BYTES LEN st P i1 (nth_error_In _ _ N1) Hh).
        rewrite (const_of info stack_io code BYTES LEN st P i2 (nth_error_In _ _ N2)) by congruence.
        rewrite <- Eo, Z0. reflexivity.
      - unfold inst_const. rewrite <- Eo, Hh, (Ed ltac:(lia)). reflexivity. }
    destruct (parse_inst_inv _ _ _ _ P) as (_ & _ & _ & _ & _ & IO & _).
    destruct (IO i1 (nth_error_In _ _ N1)) as (A1 & m1 & O1 & V1). destruct (IO i2 (nth_error_In _ _ N2)) as (A2 & m2 & O2 & V2).
    split; [|split; [congruence|split; [congruence|]]].
    - rewrite O1, O2, <- Eo. destruct (active_of info (i_op i1)) eqn:Ea; [|reflexivity].
      unfold compute_stack_io.
      assert (X : is_8024 (i_op i1) = true -> imm_u8 m1 = imm_u8 m2).
      { intros H8. rewrite V1, V2 by congruence.
        assert (M : min_imm_len (i_op i1) = 1%nat).
        { unfold is_8024, OP_DUPN, OP_EXCHANGE in H8. unfold min_imm_len. destruct ((0x60 <=? i_op i1) && (i_op i1 <=? 0x7f)) eqn:E; [lia|]. rewrite H8. reflexivity. }
        assert (Hh : has_imm_data (i_op i1) = true) by (apply imm_has; lia).
        specialize (C Hh). rewrite (const_of info stack_io code BYTES LEN st P i1 (nth_error_In _ _ N1) Hh) in C.
        rewrite (const_of info stack_io code BYTES LEN st P i2 (nth_error_In _ _ N2)) in C by congruence.
        rewrite <- Eo, M in C. exact C. }
      unfold is_8024, OP_DUPN, OP_SWAPN, OP_EXCHANGE in *.
      destruct (Z.eqb_spec (i_op i1) 0xe6); [rewrite X by lia; reflexivity|].
      destruct (Z.eqb_spec (i_op i1) 0xe7); [rewrite X by lia; reflexivity|].
      destruct (Z.eqb_spec (i_op i1) 0xe8); [rewrite X by lia; reflexivity|reflexivity].
    - intros Hh. cbn [a_const program_env]. rewrite N1, N2. apply C, Hh.
  Qed.
End Uniform.

(** ** Executing two blocks with the same instructions. *)
(** Other than PC, what an instruction does depends only on its opcode and immediate. *)
Definition sem_uniform {Y} (prog : list idata) (sem : nat -> list Z -> Y -> option (list Z * Y)) : Prop :=
  forall i j d1 d2 args y, nth_error prog i = Some d1 -> nth_error prog j = Some d2 -> alike d1 d2 -> d_op d1 <> 0x58 ->
    sem i args y = sem j args y.

Section Exec.
  Context {Y : Type} (prog : list idata) (const : nat -> Z) (dest : Z -> option nat)
          (sem : nat -> list Z -> Y -> option (list Z * Y)).
  Hypothesis UNI : forall i j d1 d2, nth_error prog i = Some d1 -> nth_error prog j = Some d2 -> alike d1 d2 -> d_op d1 <> 0 ->
    d_io d1 = d_io d2 /\ f_disabled (d_flags d1) = f_disabled (d_flags d2) /\ f_unknown (d_flags d1) = f_unknown (d_flags d2) /\
    (has_imm_data (d_op d1) = true -> const i = const j).
  Hypothesis SEM : sem_uniform prog sem.
  Notation exec := (evm_exec const dest sem).
  Notation step := (evm_step prog const dest sem).

  Definition at_ (i : nat) (r : option (list Z * Y)) : option (nat * list Z * Y) :=
    match r with Some (st, y) => Some (i, st, y) | None => None end.
  Lemma keep_at i y r : keep i y r = at_ i (match r with Some st => Some (st, y) | None => None end).
  Proof. destruct r; reflexivity. Qed.

  Lemma exec_alike i j d1 d2 st y : nth_error prog i = Some d1 -> nth_error prog j = Some d2 -> alike d1 d2 -> d_op d1 <> 0x58 ->
    d_op d1 <> 0x56 -> d_op d1 <> 0x57 ->
    exists r, exec i d1 st y = at_ (S i) r /\ exec j d2 st y = at_ (S j) r.
  Proof.
    intros H1 H2 A NP N6 N7. unfold evm_exec. rewrite <- (proj1 A).
    assert (NN : exists r : option (list Z * Y), @None (nat * list Z * Y) = at_ (S i) r /\ @None (nat * list Z * Y) = at_ (S j) r) by (exists None; auto).
    destruct (Z.eq_dec (d_op d1) 0) as [Z0|NZ].
    { rewrite Z0. cbn. exists None. destruct (_ || _), (f_disabled (d_flags d2) || f_unknown (d_flags d2)); auto. }
    destruct (UNI i j d1 d2 H1 H2 A NZ) as (Eio & Ed & Eu & Ec). rewrite <- Eio, <- Ed, <- Eu.
    destruct (_ || _); [exact NN|].
    destruct ((0x5f <=? d_op d1) && (d_op d1 <=? 0x7f)) eqn:E1.
    { rewrite Ec by (unfold has_imm_data, OP_PUSH0, OP_PUSH32; rewrite E1; reflexivity). exists (Some (const j :: st, y)). auto. }
    destruct (d_op d1 =? 0x50). { destruct st as [|x st]; [exact NN|exists (Some (st, y)); auto]. }
    destruct ((0x80 <=? d_op d1) && (d_op d1 <=? 0x8f)).
    { destruct (nth_error st _) as [v|]; [exists (Some (v :: st, y)); auto|exact NN]. }
    destruct ((0x90 <=? d_op d1) && (d_op d1 <=? 0x9f)). { rewrite !keep_at. eauto. }
    assert (Ec' : d_op d1 = 0xe6 \/ d_op d1 = 0xe7 \/ d_op d1 = 0xe8 -> const i = const j).
    { intros X. apply Ec. destruct X as [-> |[-> | ->]]; reflexivity. }
    destruct (Z.eqb_spec (d_op d1) 0xe6).
    { rewrite Ec' by auto. destruct (eip_single (const j)) as [nn|]; [|exact NN].
      destruct (nth_error st (nn - 1)) as [v|]; [exists (Some (v :: st, y)); auto|exact NN]. }
    destruct (Z.eqb_spec (d_op d1) 0xe7).
    { rewrite Ec' by auto. destruct (eip_single (const j)) as [nn|]; [|exact NN]. rewrite !keep_at. eauto. }
    destruct (Z.eqb_spec (d_op d1) 0xe8).
    { rewrite Ec' by auto. destruct (eip_pair (const j)) as [[nn mm]|]; [|exact NN]. rewrite !keep_at. eauto. }
    destruct (Z.eqb_spec (d_op d1) 0x56); [congruence|]. destruct (Z.eqb_spec (d_op d1) 0x57); [congruence|].
    destruct (existsb _ _); [exact NN|].
    destruct (length st <? Z.to_nat (fst (d_io d1)))%nat; [exact NN|].
    rewrite <- (SEM i j d1 d2 _ _ H1 H2 A NP). destruct (sem i _ y) as [[outs y']|]; [|exact NN].
    exists (Some (outs ++ skipn (Z.to_nat (fst (d_io d1))) st, y')). auto.
  Qed.
  Lemma exec_jump_alike i j d1 d2 st y : nth_error prog i = Some d1 -> nth_error prog j = Some d2 -> alike d1 d2 -> d_op d1 = 0x56 ->
    exec i d1 st y = exec j d2 st y.
  Proof.
    intros H1 H2 A O. unfold evm_exec. rewrite <- (proj1 A).
    destruct (UNI i j d1 d2 H1 H2 A) as (Eio & Ed & Eu & Ec); [rewrite O; discriminate|]. rewrite <- Eio, <- Ed, <- Eu, O.
    destruct (_ || _); [reflexivity|]. cbn. reflexivity.
  Qed.

  (** [n] instructions from [i] and from [j]. *)
  Notation run := (run prog const dest sem).
  Definition shifted (k : nat) (i j : nat) (r1 r2 : option (nat * list Z * Y)) : Prop :=
    match r1, r2 with
    | Some (i', st1, y1), Some (j', st2, y2) => i' = (i + k)%nat /\ j' = (j + k)%nat /\ st1 = st2 /\ y1 = y2
    | None, None => True
    | _, _ => False
    end.
  Lemma run_S n s : run (S n) s = match run n s with Some (i, st, y) => step i st y | None => None end.
  Proof.
    revert s. induction n as [|n IH]; intros [[i st] y].
    - cbn. destruct (step i st y); reflexivity.
    - change (run (S (S n)) (i, st, y)) with (match step i st y with Some s' => run (S n) s' | None => None end).
      change (run (S n) (i, st, y)) with (match step i st y with Some s' => run n s' | None => None end).
      destruct (step i st y) as [s'|]; [apply IH|reflexivity].
  Qed.

  Lemma run_alike n i j : (forall k, (k < n)%nat -> exists d1 d2, nth_error prog (i + k) = Some d1 /\ nth_error prog (j + k) = Some d2 /\
      alike d1 d2 /\ d_op d1 <> 0x58 /\ ((S k < n)%nat -> d_op d1 <> 0x56 /\ d_op d1 <> 0x57)) ->
    forall st y, (forall k, (k < n)%nat -> shifted k i j (run k (i, st, y)) (run k (j, st, y))) /\
      ((0 < n)%nat -> (forall d, nth_error prog (i + (n - 1)) = Some d -> d_op d = 0x56) -> run n (i, st, y) = run n (j, st, y)) /\
      ((forall d, nth_error prog (i + (n - 1)) = Some d -> d_op d <> 0x56 /\ d_op d <> 0x57) -> shifted n i j (run n (i, st, y)) (run n (j, st, y))).
  Proof.
    intros H st y.
    assert (SH : forall k, (k < n)%nat -> shifted k i j (run k (i, st, y)) (run k (j, st, y))).
    { induction k as [|k IH]; intros Hk; [cbn; repeat split; lia|].
      rewrite !run_S. specialize (IH ltac:(lia)). destruct (H k ltac:(lia)) as (d1 & d2 & N1 & N2 & A & NP & NJ). destruct (NJ Hk) as [J1 J2].
      destruct (run k (i, st, y)) as [[[i1 s1] y1]|], (run k (j, st, y)) as [[[j1 s2] y2]|]; cbn in IH; try contradiction; [|exact I].
      destruct IH as (-> & -> & -> & ->). unfold evm_step. rewrite N1, N2.
      destruct (exec_alike (i + k) (j + k) d1 d2 s2 y2 N1 N2 A NP J1 J2) as (r & -> & ->).
      destruct r as [[s3 y3]|]; cbn; [|exact I]. destruct (length s3 <=? 1024)%nat; cbn; [repeat split; lia|exact I]. }
    split; [exact SH|]. split.
    - intros Hn HJ. destruct n as [|m]; [lia|]. rewrite !run_S. specialize (SH m ltac:(lia)).
      destruct (H m ltac:(lia)) as (d1 & d2 & N1 & N2 & A & NP & _).
      destruct (run m (i, st, y)) as [[[i1 s1] y1]|], (run m (j, st, y)) as [[[j1 s2] y2]|]; cbn in SH; try contradiction; [|reflexivity].
      destruct SH as (-> & -> & -> & ->). unfold evm_step. rewrite N1, N2.
      replace (S m - 1)%nat with m in HJ by lia. rewrite (exec_jump_alike (i + m) (j + m) d1 d2 s2 y2 N1 N2 A (HJ _ N1)). reflexivity.
    - intros HJ. destruct n as [|m]; [cbn; repeat split; lia|]. rewrite !run_S. specialize (SH m ltac:(lia)).
      destruct (H m ltac:(lia)) as (d1 & d2 & N1 & N2 & A & NP & _). replace (S m - 1)%nat with m in HJ by lia. destruct (HJ _ N1) as [J1 J2].
      destruct (run m (i, st, y)) as [[[i1 s1] y1]|], (run m (j, st, y)) as [[[j1 s2] y2]|]; cbn in SH; try contradiction; [|exact I].
      destruct SH as (-> & -> & -> & ->). unfold evm_step. rewrite N1, N2.
      destruct (exec_alike (i + m) (j + m) d1 d2 s2 y2 N1 N2 A NP J1 J2) as (r & -> & ->).
      destruct r as [[s3 y3]|]; cbn; [|exact I]. destruct (length s3 <=? 1024)%nat; cbn; [repeat split; lia|exact I].
  Qed.
End Exec.

(** ** Groups. *)
Lemma list_eqb_eq a : forall b, list_eqb a b = true -> a = b.
Proof. induction a as [|x a IH]; intros [|y b] H; cbn in H; try discriminate; auto. apply andb_true_iff in H as [H1 H2]. f_equal; [lia|auto]. Qed.
Lemma nats_eqb_eq a : forall b, nats_eqb a b = true -> a = b.
Proof. induction a as [|x a IH]; intros [|y b] H; cbn in H; try discriminate; auto. apply andb_true_iff in H as [H1 H2]. apply Nat.eqb_eq in H1. f_equal; auto. Qed.
Lemma key_eqb_eq a b : key_eqb a b = true -> a = b.
Proof.
  destruct a, b. unfold key_eqb. cbn. intros H. apply andb_true_iff in H as [H H3]. apply andb_true_iff in H as [H1 H2].
  apply list_eqb_eq in H1. apply nats_eqb_eq in H2. apply Bool.eqb_prop in H3. congruence.
Qed.

(** Groups hold eligible blocks with the group's key, in increasing order. *)
Definition group_ok (p : bc) (n : nat) (k : dkey) (g : list nat) : Prop :=
  g <> [] /\ StronglySorted lt g /\
  forall b, In b g -> (b < n)%nat /\ exists bl, nth_error (b_blocks p) b = Some bl /\ block_key p bl = Some k.
Lemma push_group_in k b : forall m k' g, In (k', g) (push_group k b m) ->
  In (k', g) m \/ (k' = k /\ g = [b]) \/ (exists g0, In (k', g0) m /\ k' = k /\ g = g0 ++ [b]).
Proof.
  induction m as [|[k0 g0] m IH]; intros k' g H; cbn in H.
  - destruct H as [H|[]]. injection H as <- <-. auto.
  - destruct (key_eqb k0 k) eqn:E.
    + destruct H as [H|H]; [|left; right; exact H]. apply key_eqb_eq in E. injection H as <- <-. right. right. exists g0. repeat split; auto. left; reflexivity.
    + destruct H as [H|H]; [left; left; exact H|]. destruct (IH _ _ H) as [X|[X|(g1 & X & Y)]]; auto.
      * left. right. exact X.
      * right. right. exists g1. split; [right; exact X|exact Y].
Qed.
Lemma sorted_snoc g (b : nat) : StronglySorted lt g -> (forall x, In x g -> (x < b)%nat) -> StronglySorted lt (g ++ [b]).
Proof.
  induction 1 as [|x g S IH F]; intros H; cbn; [constructor; constructor|].
  constructor; [apply IH; intros y Hy; apply H; right; exact Hy|].
  apply Forall_app. split; [exact F|]. constructor; [apply H; left; reflexivity|constructor].
Qed.
Lemma group_from_ok p : forall l b m, (forall i, nth_error l i = nth_error (b_blocks p) (b + i)) ->
  (forall k g, In (k, g) m -> group_ok p b k g) ->
  forall k g, In (k, g) (group_from p b l m) -> group_ok p (b + length l) k g.
Proof.
  induction l as [|bl l IH]; intros b m HL HM k g H; cbn [group_from] in H.
  - cbn. rewrite Nat.add_0_r. apply HM, H.
  - replace (b + length (bl :: l))%nat with (S b + length l)%nat by (cbn; lia). eapply IH; [..|exact H].
    + intros i. specialize (HL (S i)). cbn in HL. rewrite HL. f_equal. lia.
    + assert (W : forall k g, group_ok p b k g -> group_ok p (S b) k g).
      { intros k0 g0 (A & B & C). split; [exact A|]. split; [exact B|]. intros x Hx. destruct (C x Hx). split; [lia|assumption]. }
      destruct (block_key p bl) as [k1|] eqn:Ek; [|intros; apply W, HM; assumption].
      assert (Hb : nth_error (b_blocks p) b = Some bl) by (specialize (HL 0%nat); cbn in HL; rewrite Nat.add_0_r in HL; congruence).
      intros k0 g0 Hin. apply push_group_in in Hin as [Hin|[[-> ->]|(g1 & Hin & -> & ->)]].
      * apply W, HM, Hin.
      * split; [discriminate|]. split; [constructor; constructor|]. intros x [<- |[]]. split; [lia|eauto].
      * destruct (HM _ _ Hin) as (A & B & C). split; [destruct g1; discriminate|]. split.
        { apply sorted_snoc; [exact B|]. intros x Hx. apply C, Hx. }
        intros x Hx. apply in_app_or in Hx as [Hx|[<- |[]]]; [destruct (C x Hx); split; [lia|assumption]|]. split; [lia|eauto].
Qed.
Lemma groups_ok p g : In g (groups p) -> exists k, group_ok p (length (b_blocks p)) k g.
Proof.
  unfold groups. intros H. apply in_map_iff in H as ([k g'] & <- & H). exists k.
  apply (group_from_ok p (b_blocks p) 0 []) in H; [exact H|reflexivity|intros ? ? []].
Qed.

(** What a key says about its block. *)
Lemma block_key_spec p b k : block_key p b = Some k ->
  exists term first, nth_error (b_insts p) (terminator b) = Some term /\ nth_error (b_insts p) (bk_start b) = Some first /\
    can_fall_through term = false /\ (b_dyn p = true -> is_jumpdest first = false) /\
    (forall i d, In i (blk_insts b) -> nth_error (b_insts p) i = Some d -> d_op d <> OP_PC) /\
    (is_jump term = true -> f_static (d_flags term) = true) /\
    k_print k = block_fingerprint (b_insts p) b /\ k_print k <> [] /\ k_succs k = bk_succs b /\ k_multi k = f_multi (d_flags term).
Proof.
  unfold block_key. destruct (nth_error (b_insts p) (terminator b)) as [term|] eqn:Et; [|discriminate].
  destruct (nth_error (b_insts p) (bk_start b)) as [first|] eqn:Ef; [|discriminate].
  destruct (can_fall_through term) eqn:E1; [discriminate|].
  destruct (b_dyn p && is_reachable_jumpdest true first) eqn:E2; [discriminate|].
  destruct (existsb _ (blk_insts b)) eqn:E3; [discriminate|].
  destruct (is_jump term && negb (f_static (d_flags term))) eqn:E4; [discriminate|].
  destruct (block_fingerprint (b_insts p) b) as [|x fp] eqn:E5; [discriminate|]. intros E. injection E as <-.
  exists term, first. split; [reflexivity|]. split; [reflexivity|]. split; [exact E1|]. split.
  { intros D. rewrite D in E2. unfold is_reachable_jumpdest in E2. destruct (is_jumpdest first); [discriminate|reflexivity]. }
  split.
  { intros i d Hi Hd HO. assert (X : existsb (fun i => match nth_error (b_insts p) i with Some d => d_op d =? OP_PC | None => false end) (blk_insts b) = true).
    { apply existsb_exists. exists i. split; [exact Hi|]. rewrite Hd, HO. reflexivity. }
    rewrite X in E3. discriminate. }
  split.
  { intros J. rewrite J in E4. destruct (f_static (d_flags term)); [reflexivity|discriminate]. }
  cbn. repeat split; auto. discriminate.
Qed.

(** ** Merged blocks have the same instructions. *)
Lemma slice_print insts n : forall s, (s + n <= length insts)%nat ->
  exists l, length l = n /\ (forall k, (k < n)%nat -> nth_error l k = nth_error insts (s + k)) /\
    flat_map (fun i => match nth_error insts i with Some d => inst_print d | None => [] end) (seq s n) = prints l.
Proof.
  induction n as [|n IH]; intros s H.
  - exists []. repeat split. intros k Hk. lia.
  - destruct (nth_some insts s) as [d Hd]; [lia|]. destruct (IH (S s)) as (l & L & N & F); [lia|].
    exists (d :: l). split; [cbn; congruence|]. split.
    + intros [|k] Hk; cbn; [rewrite Nat.add_0_r; congruence|]. rewrite N by lia. f_equal. lia.
    + cbn [seq flat_map]. rewrite Hd, F. reflexivity.
Qed.
Lemma Forall_nth {A} (P : A -> Prop) l : (forall k d, nth_error l k = Some d -> P d) -> Forall P l.
Proof. intros H. apply Forall_forall. intros x Hx. apply In_nth_error in Hx as [k Hk]. eapply H; eauto. Qed.
Lemma stop_last_nth l : (forall k d, nth_error l k = Some d -> (S k < length l)%nat -> d_op d <> 0) -> stop_last l.
Proof.
  induction l as [|d l IH]; intros H; cbn; [exact I|]. split.
  - intros E. destruct l as [|d1 l]; [reflexivity|]. exfalso. apply (H 0%nat d eq_refl); [cbn; lia|exact E].
  - apply IH. intros k e Hk Hl. apply (H (S k) e Hk). cbn. lia.
Qed.
Lemma Forall2_nth {A B} (P : A -> B -> Prop) l1 l2 : Forall2 P l1 l2 -> length l1 = length l2 /\
  forall k x y, nth_error l1 k = Some x -> nth_error l2 k = Some y -> P x y.
Proof.
  induction 1 as [|x y l1 l2 H F [L N]]; [split; [reflexivity|intros [|k]; discriminate]|].
  split; [cbn; congruence|]. intros [|k] a b Ha Hb; cbn in *; [congruence|eauto].
Qed.

(** The constants of the long PUSHes of a block have handles that print unambiguously. *)
Definition long_ok (prog : list idata) (b : blk) : Prop :=
  forall i d, In i (blk_insts b) -> nth_error prog i = Some d -> (3 <= min_imm_len (d_op d))%nat -> d_data d mod 256 <> 0.

Lemma in_blk b i : In i (blk_insts b) <-> (bk_start b <= i < bk_end b)%nat.
Proof. unfold blk_insts. rewrite in_seq. lia. Qed.

Section Same.
  Context (prog : list idata) (p : bc).
  Hypothesis SK : skel prog (b_insts p).
  Hypothesis CH : forall b bl, nth_error (b_blocks p) b = Some bl ->
    (bk_start bl < bk_end bl <= length (b_insts p))%nat /\ chain (b_dyn p) (b_insts p) (bk_start bl, bk_end bl).
  Hypothesis INL : forall i d n, nth_error prog i = Some d -> min_imm_len (d_op d) = n -> (n = 1 \/ n = 2)%nat -> is_inline n d.
  Hypothesis RNG : forall i d, nth_error prog i = Some d -> (0 < min_imm_len (d_op d))%nat -> 0 <= d_data d < 2 ^ 32.

  Lemma block_print b bl : nth_error (b_blocks p) b = Some bl -> long_ok prog bl ->
    exists l, length l = (bk_end bl - bk_start bl)%nat /\
      (forall k, (k < length l)%nat -> nth_error l k = nth_error (b_insts p) (bk_start bl + k)) /\
      block_fingerprint (b_insts p) bl = prints l /\ Forall clear_imm l /\ stop_last l.
  Proof.
    intros Hb LO. destruct (CH b bl Hb) as [Bd C].
    destruct (slice_print (b_insts p) (bk_end bl - bk_start bl) (bk_start bl)) as (l & L & N & F); [lia|].
    exists l. split; [exact L|]. split; [intros k Hk; apply N; lia|]. split; [exact F|]. split.
    - apply Forall_nth. intros k d Hk. assert (Hl : (k < length l)%nat) by (apply nth_error_Some; congruence).
      rewrite N in Hk by lia. destruct (skel_orig _ _ _ _ SK Hk) as (d0 & H0 & (E1 & _ & _ & _ & E5)).
      unfold clear_imm. destruct (min_imm_len (d_op d)) as [|[|[|m]]] eqn:M; [exact I|..]; rewrite E1 in M.
      + destruct (INL _ d0 1%nat H0 M) as (v & Hv & Ev); [auto|]. exists v. split; [exact Hv|congruence].
      + destruct (INL _ d0 2%nat H0 M) as (v & Hv & Ev); [auto|]. exists v. split; [exact Hv|congruence].
      + rewrite E5. split; [|apply (RNG _ d0 H0); lia].
        apply (LO (bk_start bl + k)%nat d0); [apply in_blk; lia|exact H0|lia].
    - apply stop_last_nth. intros k d Hk Hl. rewrite N in Hk by lia.
      destruct (C (bk_start bl + k)%nat) as (d' & Hd' & _ & NB); [cbn; lia|]. rewrite Hk in Hd'. injection Hd' as <-.
      destruct (NB ltac:(cbn; lia)) as [B _]. intros E. unfold is_branching, is_diverging, OP_STOP in B. rewrite E in B.
      cbn in B. rewrite !orb_true_r in B. discriminate.
  Qed.

  Lemma group_alike g a b : In g (groups p) -> In a g -> In b g -> exists bla blb,
    nth_error (b_blocks p) a = Some bla /\ nth_error (b_blocks p) b = Some blb /\ bk_succs bla = bk_succs blb /\
    (long_ok prog bla -> long_ok prog blb ->
       (bk_end bla - bk_start bla = bk_end blb - bk_start blb)%nat /\
       forall k, (k < bk_end bla - bk_start bla)%nat -> exists d1 d2,
         nth_error prog (bk_start bla + k) = Some d1 /\ nth_error prog (bk_start blb + k) = Some d2 /\ alike d1 d2 /\ d_op d1 <> 0x58 /\
         ((S k < bk_end bla - bk_start bla)%nat -> d_op d1 <> 0x56 /\ d_op d1 <> 0x57)).
  Proof.
    intros Hg Ha Hb. destruct (groups_ok p g Hg) as (key & _ & _ & G).
    destruct (G a Ha) as (_ & bla & Na & Ka). destruct (G b Hb) as (_ & blb & Nb & Kb).
    exists bla, blb. split; [exact Na|]. split; [exact Nb|].
    destruct (block_key_spec _ _ _ Ka) as (ta & fa & _ & _ & _ & _ & PCa & _ & Pa & _ & Sa & _).
    destruct (block_key_spec _ _ _ Kb) as (tb & fb & _ & _ & _ & _ & _ & _ & Pb & _ & Sb & _).
    split; [congruence|]. intros La Lb.
    destruct (block_print a bla Na La) as (l1 & L1 & N1 & P1 & C1 & S1).
    destruct (block_print b blb Nb Lb) as (l2 & L2 & N2 & P2 & C2 & S2).
    destruct (Forall2_nth _ _ _ (prints_inj l1 l2 C1 C2 S1 S2 ltac:(congruence))) as [LE AL].
    split; [lia|]. intros k Hk.
    destruct (nth_some l1 k) as [e1 E1]; [lia|]. destruct (nth_some l2 k) as [e2 E2]; [lia|].
    specialize (AL k e1 e2 E1 E2). rewrite N1 in E1 by lia. rewrite N2 in E2 by lia.
    destruct (skel_orig _ _ _ _ SK E1) as (d1 & D1 & (O1 & _ & _ & _ & X1)).
    destruct (skel_orig _ _ _ _ SK E2) as (d2 & D2 & (O2 & _ & _ & _ & X2)).
    exists d1, d2. split; [exact D1|]. split; [exact D2|]. split; [|split].
    - destruct AL as [A1 A2]. split; [congruence|]. rewrite <- X1, <- X2, <- O1. exact A2.
    - rewrite <- O1. apply (PCa (bk_start bla + k)%nat e1); [apply in_blk; lia|exact E1].
    - intros HS. destruct (CH a bla Na) as [_ C]. destruct (C (bk_start bla + k)%nat) as (d' & Hd' & _ & NB); [cbn; lia|].
      rewrite E1 in Hd'. injection Hd' as <-. destruct (NB ltac:(cbn; lia)) as [B _]. rewrite <- O1.
      unfold is_branching, is_jump, OP_JUMP, OP_JUMPI in B. destruct (Z.eqb_spec (d_op e1) 0x56); [discriminate|]. destruct (Z.eqb_spec (d_op e1) 0x57); [discriminate|]. auto.
  Qed.
End Same.

(** ** Redirects. *)
Definition downward (r : list (nat * nat)) : Prop := forall k v, In (k, v) r -> (v < k)%nat.
Lemma lookup_in k r v : lookup k r = Some v -> In (k, v) r.
Proof.
  induction r as [|[a b] r IH]; cbn; [discriminate|]. destruct (Nat.eqb_spec a k); intros H; [left; congruence|right; auto].
Qed.
Lemma lookup_none k r : lookup k r = None <-> ~ In k (map fst r).
Proof.
  induction r as [|[a b] r IH]; cbn; [tauto|]. destruct (Nat.eqb_spec a k); [split; [discriminate|intros H; exfalso; auto]|].
  rewrite IH. tauto.
Qed.
Lemma insert_key_in k v r k' v' : In (k', v') (insert_key k v r) -> (k' = k /\ v' = v) \/ In (k', v') r.
Proof.
  induction r as [|[a b] r IH]; cbn; [intros [H|[]]; left; split; congruence|].
  destruct (Nat.eqb_spec a k) as [-> |]; intros [H|H]; auto.
  - left; split; congruence.
  - destruct (IH H); auto.
Qed.
Lemma insert_key_lookup k v r k' : lookup k' (insert_key k v r) = if (k' =? k)%nat then Some v else lookup k' r.
Proof.
  induction r as [|[a b] r IH]; cbn.
  - rewrite (Nat.eqb_sym k k'). reflexivity.
  - destruct (Nat.eqb_spec a k) as [-> |N]; cbn; rewrite ?(Nat.eqb_sym k k').
    + destruct (Nat.eqb_spec k' k); [reflexivity|reflexivity].
    + destruct (Nat.eqb_spec a k') as [-> |].
      * destruct (Nat.eqb_spec k' k); [congruence|reflexivity].
      * exact IH.
Qed.
Lemma insert_key_length k v r : In k (map fst r) -> length (insert_key k v r) = length r.
Proof.
  induction r as [|[a b] r IH]; cbn; [tauto|]. destruct (Nat.eqb_spec a k); [reflexivity|]. intros [|H]; [congruence|]. cbn. auto.
Qed.
Lemma insert_key_keys k v r : In k (map fst r) -> map fst (insert_key k v r) = map fst r.
Proof.
  induction r as [|[a b] r IH]; cbn; [tauto|]. destruct (Nat.eqb_spec a k); [reflexivity|]. intros [|H]; [congruence|]. cbn. f_equal. auto.
Qed.
Lemma insert_key_downward k v r : downward r -> (v < k)%nat -> downward (insert_key k v r).
Proof. intros D H k' v' Hin. apply insert_key_in in Hin as [[-> ->]|Hin]; auto. Qed.

(** The end of a chain as a relation, with no bound. *)
Inductive ends (r : list (nat * nat)) : nat -> nat -> Prop :=
| ends_here t : lookup t r = None -> ends r t t
| ends_next t n u : lookup t r = Some n -> ends r n u -> ends r t u.
Lemma ends_det r t u : ends r t u -> forall u', ends r t u' -> u = u'.
Proof.
  induction 1 as [t H|t n u H E IH]; intros u' E'; inversion E' as [? H'|? n' ? H' E'']; subst; try congruence.
  apply IH. congruence.
Qed.
Lemma chase_ends f : forall r t u, chase f r t = Some u -> ends r t u.
Proof.
  induction f as [|f IH]; intros r t u H; cbn in H; destruct (lookup t r) as [n|] eqn:E.
  - discriminate.
  - injection H as <-. constructor. exact E.
  - eapply ends_next; eauto.
  - injection H as <-. constructor. exact E.
Qed.
(** Keys up to [t]. *)
Definition below (t : nat) (r : list (nat * nat)) : nat := length (filter (fun kv => fst kv <=? t)%nat r).
Lemma below_le t r : (below t r <= length r)%nat.
Proof. unfold below. induction r as [|x r IH]; [auto|]. cbn [filter]. destruct (fst x <=? t)%nat; cbn [length]; lia. Qed.
Lemma below_mono a b r : (a <= b)%nat -> (below a r <= below b r)%nat.
Proof.
  intros H. unfold below. induction r as [|x r IH]; [auto|]. cbn [filter].
  destruct (Nat.leb_spec (fst x) a), (Nat.leb_spec (fst x) b); cbn [length]; lia.
Qed.
Lemma below_lt a b v r : (a < b)%nat -> In (b, v) r -> (below a r < below b r)%nat.
Proof.
  intros H. induction r as [|x r IH]; [intros []|]. intros [-> |Hin]; unfold below in *; cbn [filter fst].
  - pose proof (below_mono a b r ltac:(lia)) as M. unfold below in M. destruct (Nat.leb_spec b a); [lia|]. destruct (Nat.leb_spec b b); [|lia]. cbn [length]. lia.
  - specialize (IH Hin). destruct (Nat.leb_spec (fst x) a), (Nat.leb_spec (fst x) b); cbn [length]; lia.
Qed.
Lemma chase_total r : downward r -> forall f t, (below t r <= f)%nat -> exists u, chase f r t = Some u /\ (u <= t)%nat /\ (lookup t r <> None -> u < t)%nat.
Proof.
  intros D. induction f as [|f IH]; intros t H; cbn [chase]; destruct (lookup t r) as [n|] eqn:E.
  - apply lookup_in in E. pose proof (below_lt n t n r (D _ _ E) E). lia.
  - exists t. repeat split; auto. congruence.
  - apply lookup_in in E. pose proof (below_lt n t n r (D _ _ E) E). destruct (IH n ltac:(lia)) as (u & -> & Hu & _). exists u.
    pose proof (D _ _ E). repeat split; lia.
  - exists t. repeat split; auto. congruence.
Qed.
Lemma root_total r t : downward r -> exists u, root r t = Some u /\ ends r t u /\ (u <= t)%nat /\ (lookup t r <> None -> u < t)%nat.
Proof.
  intros D. unfold root. destruct (chase_total r D (length r) t (below_le t r)) as (u & E & H). exists u.
  split; [exact E|]. split; [eapply chase_ends; eauto|exact H].
Qed.
Lemma ends_lookup_none r t u : ends r t u -> lookup u r = None.
Proof. induction 1; auto. Qed.

(** Compression changes no end of chain and leaves every key pointing at one. *)
Lemma ends_insert r k t' : downward r -> lookup k r <> None -> ends r k t' ->
  forall t u, ends r t u <-> ends (insert_key k t' r) t u.
Proof.
  intros D HK HE.
  assert (F : forall t u, ends r t u -> ends (insert_key k t' r) t u).
  { induction 1 as [t H|t n u H E IH].
    - constructor. rewrite insert_key_lookup. destruct (Nat.eqb_spec t k); [congruence|exact H].
    - destruct (Nat.eq_dec t k) as [-> |N].
      + assert (u = t') by (eapply ends_det; [eapply ends_next; eauto|exact HE]). subst u.
        eapply ends_next; [rewrite insert_key_lookup, Nat.eqb_refl; reflexivity|]. constructor. rewrite insert_key_lookup.
        pose proof (ends_lookup_none _ _ _ HE) as L. destruct (Nat.eqb_spec t' k) as [-> |]; [congruence|exact L].
      + eapply ends_next; [rewrite insert_key_lookup; destruct (Nat.eqb_spec t k); [congruence|exact H]|exact IH]. }
  intros t u. split; [apply F|]. intros H. destruct (root_total r t D) as (u' & _ & E' & _).
  rewrite (ends_det _ _ _ H u' (F _ _ E')). exact E'.
Qed.
Lemma compress_spec : forall keys r, downward r -> (forall k, In k keys -> lookup k r <> None) ->
  exists r', compress keys r = Some r' /\ downward r' /\ map fst r' = map fst r /\
    (forall t u, ends r t u <-> ends r' t u) /\
    (forall k v, lookup k r' = Some v -> In k keys \/ lookup k r <> Some v -> ends r k v) /\
    (forall k, ~ In k keys -> lookup k r' = lookup k r).
Proof.
  induction keys as [|k keys IH]; intros r D HK; cbn [compress].
  - exists r. split; [reflexivity|]. split; [exact D|]. split; [reflexivity|]. split; [tauto|]. split; [|auto]. intros k v H [[]|H']. congruence.
  - destruct (lookup k r) as [t|] eqn:E; [|exfalso; apply (HK k); [left; reflexivity|exact E]].
    destruct (root_total r t D) as (t' & -> & Et & Ht & _).
    assert (Ek : ends r k t') by (eapply ends_next; eauto).
    assert (Dt : (t' < k)%nat) by (pose proof (D _ _ (lookup_in _ _ _ E)); lia).
    set (r1 := if (t' =? t)%nat then r else insert_key k t' r).
    assert (P1 : downward r1 /\ map fst r1 = map fst r /\ (forall a u, ends r a u <-> ends r1 a u) /\ (forall a, lookup a r1 = if (a =? k)%nat then Some t' else lookup a r)).
    { subst r1. destruct (Nat.eqb_spec t' t) as [-> |].
      - split; [exact D|]. split; [reflexivity|]. split; [tauto|]. intros a. destruct (Nat.eqb_spec a k); [congruence|reflexivity].
      - split; [apply insert_key_downward; assumption|]. split.
        { apply insert_key_keys. destruct (in_dec Nat.eq_dec k (map fst r)); [assumption|]. exfalso. rewrite (proj2 (lookup_none k r) n0) in E. discriminate. }
        split; [apply ends_insert; auto; congruence|]. intros a. apply insert_key_lookup. }
    destruct P1 as (D1 & K1 & S1 & L1). clearbody r1.
    destruct (IH r1 D1) as (r' & E' & D' & K' & S' & V' & O').
    { intros a Ha. rewrite L1. destruct (a =? k)%nat; [discriminate|]. apply HK. right. exact Ha. }
    exists r'. split; [exact E'|]. split; [exact D'|]. split; [congruence|]. split; [intros a u; rewrite S1; apply S'|]. split.
    + intros a v Hv Ho. apply S1. destruct (in_dec Nat.eq_dec a keys) as [Hi|Hi]; [apply V'; auto|].
      rewrite (O' a Hi), L1 in Hv. destruct (Nat.eqb_spec a k) as [-> |].
      * injection Hv as <-. apply S1. exact Ek.
      * destruct Ho as [[|]|Ho]; congruence.
    + intros a Ha. rewrite O' by (intros X; apply Ha; right; exact X). rewrite L1. destruct (Nat.eqb_spec a k) as [-> |]; [exfalso; apply Ha; left; reflexivity|reflexivity].
Qed.
