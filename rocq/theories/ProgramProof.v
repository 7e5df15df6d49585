(** Every parsed bytecode is a well-formed program. *)
From Verif Require Import ProgramModel OpcodeSpec OpcodeProof FlowSpec CfgProof ArithSpec BlockProof GlobalProof.
From Coq Require Import ZifyBool.
Open Scope Z_scope.

(** What is required of revm's opcode tables. *)
Record tables_ok (info : Z -> opinfo) (stack_io : Z -> Z * Z) : Prop := {
  tk_jump : forall op, op = 0x56 \/ op = 0x57 -> oi_unknown (info op) = false /\ oi_disabled (info op) = false;
  tk_pos : forall op, 0 <= fst (stack_io op) /\ 0 <= snd (stack_io op);
  tk_push : forall op, 0x5f <= op <= 0x7f -> stack_io op = (0, 1);
  tk_pop : stack_io 0x50 = (1, 0);
  tk_dup : forall op, 0x80 <= op <= 0x8f -> stack_io op = (op - 0x7f, op - 0x7e);
  tk_swap : forall op, 0x90 <= op <= 0x9f -> stack_io op = (op - 0x8e, op - 0x8e);
  tk_jumps : stack_io 0x56 = (1, 0) /\ stack_io 0x57 = (2, 0) /\ stack_io 0x5b = (0, 0)
}.

Lemma evm_be_bound l : Forall is_byte l -> evm_be l < 256 ^ Z.of_nat (length l).
Proof.
  induction 1 as [|b l Hb Hl IH]; cbn [evm_be length]; [reflexivity|].
  rewrite Nat2Z.inj_succ, Z.pow_succ_r by lia. unfold is_byte in Hb.
  assert (0 < 256 ^ Z.of_nat (length l)) by (apply Z.pow_pos_nonneg; lia). nia.
Qed.
Lemma push_bytes_length code n : forall start, length (evm_push_bytes code start n) = n.
Proof. induction n; intros; cbn; auto. Qed.
Lemma push_value_range code pc n : Forall is_byte code -> 0 <= evm_push_value code pc n < 256 ^ Z.of_nat n.
Proof.
  intros H. pose proof (push_bytes_bytes code H n (pc + 1)) as B. unfold evm_push_value.
  split; [apply evm_be_nonneg, B|]. rewrite <- (push_bytes_length code n (pc + 1)) at 2. apply evm_be_bound, B.
Qed.

(** Shape of one parse step. *)
Lemma parse_step_inst tbl io code st st' : (p_pos st <= length code)%nat -> ((p_pos st < length code)%nat -> p_pc st = p_pos st) ->
  parse_step tbl io code st = Some st' ->
  (p_pc st < p_pc st')%nat /\ ((p_pos st' < length code)%nat -> p_pc st' = p_pos st') /\ (p_pos st < length code)%nat /\
  exists op data imm, p_insts st' = p_insts st ++ [mkInst (p_pc st) op (tbl op) (if tbl op then compute_stack_io io op imm else (0, 0)) data] /\
    (tbl op = true -> is_8024 op = true -> imm_u8 imm = evm_push_value code (p_pc st) 1) /\
    p_dests st' = (if op =? OP_JUMPDEST then p_dests st ++ [p_pc st] else p_dests st) /\
    (has_imm_data op = true \/ (op = OP_JUMPDEST \/ op = OP_PC) \/ data = 0).
Proof.
  intros Hle Hpc Hstep.
  destruct (nth_error code (p_pos st)) as [b|] eqn:Hb.
  2:{ unfold parse_step, iter_next_pc in Hstep. cbn [fst snd] in Hstep.
      rewrite skipn_all2 in Hstep by (apply nth_error_None; auto). discriminate. }
  assert (Hlt : (p_pos st < length code)%nat) by (apply nth_error_Some; congruence).
  specialize (Hpc Hlt).
  destruct (parse_step_shape _ _ _ _ _ _ Hb Hstep) as (o & rest' & Hnext & Hop & Hdests & Hp & Hpc').
  pose proof (iter_next_cases _ _ _ _ _ Hnext) as (_ & Hc).
  assert (Hnl : length (skipn (S (p_pos st)) code) = (length code - p_pos st - 1)%nat) by (rewrite skipn_length; lia).
  set (rew := is_8024 b && tbl b && imm_is_jumpdest o) in *. cbn zeta in Hp, Hpc'.
  assert (Hrew : rew = true -> imm_length o = 1%nat).
  { intros E. subst rew. apply andb_true_iff in E as [_ E]. unfold imm_is_jumpdest in E. unfold imm_length.
    destruct (immediate o) as [[|? [|? ?]]|]; try discriminate. reflexivity. }
  split; [destruct rew; [rewrite (Hrew eq_refl) in Hpc'|]; lia|].
  split.
  { intros H'. destruct Hc as [[Hwf Hr]|(Hn & -> & _)].
    - rewrite Hr, app_length in Hnl. assert (E : length (match immediate o with Some i => i | None => [] end) = imm_length o) by (unfold imm_length; destruct (immediate o); reflexivity).
      rewrite E in Hnl. destruct rew; [rewrite (Hrew eq_refl) in *|]; lia.
    - cbn [length] in Hp. destruct rew eqn:Er; [|lia]. specialize (Hrew eq_refl). unfold imm_length in Hrew. rewrite Hn in Hrew. discriminate. }
  split; [exact Hlt|].
  unfold parse_step, iter_next_pc in Hstep. cbn [fst snd] in Hstep. rewrite (skipn_nth_cons _ _ _ Hb), Hnext in Hstep.
  rewrite Hop in Hstep.
  match type of Hstep with context [let '(_, _) := ?x in _] => destruct x as [int' data] eqn:Ed end.
  exists b, data, (immediate o).
  split; [|split; [|split; [exact Hdests|]]].
  - fold rew in Hstep. destruct rew; injection Hstep as <-; reflexivity.
  - intros Ht H8. assert (M : min_imm_len b = 1%nat).
    { unfold is_8024, OP_DUPN, OP_EXCHANGE in H8. unfold min_imm_len. destruct ((0x60 <=? b) && (b <=? 0x7f)) eqn:E; [lia|]. rewrite H8. reflexivity. }
    rewrite Hpc. unfold evm_push_value. cbn [evm_push_bytes evm_be length Z.of_nat]. rewrite Z.pow_0_r, Z.mul_1_r, Z.add_0_r.
    unfold byte_at. replace (p_pos st + 1)%nat with (S (p_pos st)) by lia.
    destruct Hc as [[Hwf Hr]|(Hn & _ & _ & Hs)].
    + unfold wf_item in Hwf. destruct (immediate o) as [im|].
      * destruct Hwf as (_ & Hl & _). rewrite Hop, M in Hl. destruct im as [|x [|? ?]]; try discriminate Hl. cbn [imm_u8].
        assert (E : nth_error (skipn (S (p_pos st)) code) 0 = Some x) by (rewrite Hr; reflexivity).
        rewrite nth_skipn, Nat.add_0_r in E. symmetry. apply nth_error_nth. exact E.
      * rewrite Hop in Hwf. destruct Hwf; [congruence|lia].
    + rewrite Hn. cbn [imm_u8]. rewrite M in Hs. rewrite nth_overflow; [reflexivity|]. lia.
  - destruct (has_imm_data b) eqn:Eh; [left; reflexivity|right].
    apply pair_equal_spec in Ed as [_ Ed].
    destruct ((b =? OP_JUMPDEST) || (b =? OP_PC)) eqn:Ej; [left; lia|right; congruence].
Qed.

Definition inst_inv (tbl : optable) (io : Z -> Z * Z) (code : list Z) (st : pstate) : Prop :=
  (p_pos st <= length code)%nat /\ ((p_pos st < length code)%nat -> p_pc st = p_pos st) /\
  (forall ins, In ins (p_insts st) -> (i_pc ins < p_pc st)%nat /\ (i_pc ins < length code)%nat) /\ NoDup (map i_pc (p_insts st)) /\
  (forall d, In d (p_dests st) -> exists ins, In ins (p_insts st) /\ i_pc ins = d /\ i_op ins = OP_JUMPDEST) /\
  (forall ins, In ins (p_insts st) -> i_active ins = tbl (i_op ins) /\
     exists imm, i_io ins = (if tbl (i_op ins) then compute_stack_io io (i_op ins) imm else (0, 0)) /\
       (tbl (i_op ins) = true -> is_8024 (i_op ins) = true -> imm_u8 imm = evm_push_value code (i_pc ins) 1)) /\
  (forall ins, In ins (p_insts st) -> i_op ins = OP_JUMPDEST -> In (i_pc ins) (p_dests st)).

Lemma inst_inv_step tbl io code st st' : inst_inv tbl io code st -> parse_step tbl io code st = Some st' -> inst_inv tbl io code st'.
Proof.
  intros (Hle & Hpc & Hlt & Hnd & Hd & Hio & Hj) Hs.
  destruct (parse_step_inst _ _ _ _ _ Hle Hpc Hs) as (P1 & P2 & P3 & op & data & imm & Ei & Himm & Ed & _).
  pose proof (parse_step_progress _ _ _ _ _ Hle Hs) as Pr.
  unfold inst_inv. rewrite Ei, Ed. split; [lia|]. split; [exact P2|]. split; [|split; [|split; [|split]]].
  - intros ins Hin. apply in_app_or in Hin as [Hin|[<- |[]]]; [destruct (Hlt ins Hin); lia|]. cbn. specialize (Hpc P3). lia.
  - rewrite map_app. cbn [map i_pc]. apply GlobalProof.NoDup_snoc; [exact Hnd|]. intros Hin. apply in_map_iff in Hin as (ins & E & Hin).
    destruct (Hlt ins Hin). lia.
  - intros d Hin. destruct (op =? OP_JUMPDEST) eqn:E.
    + apply in_app_or in Hin as [Hin|[<- |[]]].
      * destruct (Hd d Hin) as (ins & X1 & X2). exists ins. split; [apply in_or_app; left; exact X1|exact X2].
      * eexists. split; [apply in_or_app; right; left; reflexivity|]. cbn. split; [reflexivity|lia].
    + destruct (Hd d Hin) as (ins & X1 & X2). exists ins. split; [apply in_or_app; left; exact X1|exact X2].
  - intros ins Hin. apply in_app_or in Hin as [Hin|[<- |[]]]; [apply Hio, Hin|]. cbn. split; [reflexivity|]. exists imm. auto.
  - intros ins Hin Ho. apply in_app_or in Hin as [Hin|[<- |[]]].
    + specialize (Hj ins Hin Ho). destruct (op =? OP_JUMPDEST); [apply in_or_app; left; exact Hj|exact Hj].
    + cbn in *. rewrite Ho. change (OP_JUMPDEST =? OP_JUMPDEST) with true. cbn match. apply in_or_app. right. left. reflexivity.
Qed.
Lemma parse_inst_inv tbl io code st : parse tbl io code = Some st -> inst_inv tbl io code st.
Proof.
  intros H. eapply (parse_loop_inv (inst_inv tbl io code)); [|..|exact H].
  - intros s s' Hs Hst. eapply inst_inv_step; eauto.
  - unfold inst_inv; cbn. split; [lia|]. split; [auto|]. split; [intros ? []|]. split; [constructor|]. split; [intros ? []|]. split; intros ? [].
Qed.

Lemma pc_index_spec pc l k : pc_index pc l = Some k -> exists ins, nth_error l k = Some ins /\ i_pc ins = pc.
Proof.
  revert k. induction l as [|i l IH]; intros k H; [discriminate|]. cbn in H.
  destruct (Nat.eqb_spec (i_pc i) pc); [injection H as <-; exists i; auto|].
  destruct (pc_index pc l) as [k'|]; [|discriminate]. injection H as <-. apply (IH k' eq_refl).
Qed.
Lemma pc_index_total pc l ins : In ins l -> i_pc ins = pc -> pc_index pc l <> None.
Proof.
  induction l as [|i l IH]; intros Hin E; [destruct Hin|]. cbn. destruct (Nat.eqb_spec (i_pc i) pc); [discriminate|].
  destruct Hin as [-> |Hin]; [congruence|]. specialize (IH Hin E). destruct (pc_index pc l); [discriminate|congruence].
Qed.
Lemma nodup_pc l a b : NoDup (map i_pc l) -> In a l -> In b l -> i_pc a = i_pc b -> a = b.
Proof.
  induction l as [|x l IH]; intros ND Ha Hb E; [destruct Ha|]. cbn in ND. inversion ND as [|? ? Nin ND']; subst.
  destruct Ha as [-> |Ha], Hb as [-> |Hb]; auto.
  - exfalso. apply Nin. rewrite E. apply in_map, Hb.
  - exfalso. apply Nin. rewrite <- E. apply in_map, Ha.
Qed.

(** Instructions of the padded list. *)
Lemma last_some {A} (x : A) l : last (map Some (x :: l)) None <> None.
Proof. revert x. induction l as [|y l IH]; intros x; cbn; [discriminate|]. apply (IH y). Qed.

Lemma pad_nth info l i d : nth_error (pad_insts (map (idata_of info) l)) i = Some d ->
  (exists ins, nth_error l i = Some ins /\ d = idata_of info ins) \/ (nth_error l i = None /\ d = stop_padding).
Proof.
  intros H. unfold pad_insts in H.
  assert (M : nth_error (map (idata_of info) l) i = Some d -> exists ins, nth_error l i = Some ins /\ d = idata_of info ins).
  { intros X. rewrite nth_error_map in X. destruct (nth_error l i) as [ins|]; [|discriminate]. injection X as <-. eauto. }
  assert (P : nth_error (map (idata_of info) l ++ [stop_padding]) i = Some d ->
    (exists ins, nth_error l i = Some ins /\ d = idata_of info ins) \/ (nth_error l i = None /\ d = stop_padding)).
  { intros X. destruct (Nat.lt_ge_cases i (length l)).
    - rewrite nth_error_app1 in X by (rewrite map_length; lia). left; auto.
    - rewrite nth_error_app2 in X by (rewrite map_length; lia). right. split; [apply nth_error_None; lia|].
      destruct (i - length (map (idata_of info) l))%nat as [|[|?]]; cbn in X; congruence. }
  destruct l as [|x l].
  - cbn in H. destruct i as [|[|i]]; cbn in H; try discriminate. injection H as <-. right; auto.
  - destruct (last (map Some (map (idata_of info) (x :: l))) None) as [dl|] eqn:E; [|exfalso; revert E; apply last_some].
    destruct (can_fall_through dl); [auto|left; auto].
Qed.
Lemma pad_nth_old info l i ins : nth_error l i = Some ins -> nth_error (pad_insts (map (idata_of info) l)) i = Some (idata_of info ins).
Proof.
  intros H. assert (M : nth_error (map (idata_of info) l) i = Some (idata_of info ins)) by (rewrite nth_error_map, H; reflexivity).
  unfold pad_insts. destruct (last _ _) as [dl|] eqn:E.
  - destruct (can_fall_through dl); [|exact M]. rewrite nth_error_app1; [exact M|]. apply nth_error_Some. congruence.
  - destruct l as [|x l]; [destruct i; discriminate|exfalso; revert E; apply last_some].
Qed.

(** No pass has run yet. *)
Definition raw (l : list idata) : Prop :=
  forall i d, nth_error l i = Some d -> let f := d_flags d in
    f_static f = false /\ f_invalid f = false /\ f_multi f = false /\ f_constcond f = false /\ f_dead f = false.

Section Load.
  Context (info : Z -> opinfo) (stack_io : Z -> Z * Z) (code : list Z) (key : Z -> Z) (lim : Z).
  Hypothesis TK : tables_ok info stack_io.
  Hypothesis BYTES : Forall is_byte code.
  Hypothesis LEN : Z.of_nat (length code) < 2 ^ 31.
  Variable st : pstate.
  Hypothesis PARSE : parse (active_of info) stack_io code = Some st.
  Notation prog := (pad_insts (map (idata_of info) (p_insts st))).
  Notation env := (program_env code st key lim).

  Lemma load_raw : raw prog.
  Proof.
    intros i d H. destruct (pad_nth _ _ _ _ H) as [(ins & _ & ->)|[_ ->]]; cbn; auto.
  Qed.

  Lemma const_of ins : In ins (p_insts st) -> has_imm_data (i_op ins) = true ->
    inst_const (p_int st) ins = evm_push_value code (i_pc ins) (min_imm_len (i_op ins)).
  Proof.
    intros Hin Hh. unfold inst_const. rewrite Hh, (push_constants_lemma _ _ _ _ _ BYTES LEN PARSE Hin Hh). reflexivity.
  Qed.
  Lemma word_of_len n v : (n <= 32)%nat -> 0 <= v < 256 ^ Z.of_nat n -> is_word v.
  Proof.
    intros Hn [H1 H2]. split; [exact H1|]. eapply Z.lt_le_trans; [exact H2|].
    change W with (256 ^ 32). apply Z.pow_le_mono_r; lia.
  Qed.
  Lemma pc_data ins : In ins (p_insts st) -> i_op ins = OP_JUMPDEST \/ i_op ins = OP_PC -> i_data ins = Z.of_nat (i_pc ins).
  Proof.
    intros Hin Ho. assert (Hinv : const_inv code st /\ parse_step (active_of info) stack_io code st = None).
    { eapply (parse_loop_inv (const_inv code)); [|..|exact PARSE].
      - intros s s' Hs Hst. eapply const_inv_step; eauto.
      - unfold const_inv; cbn. repeat split; try lia; intros ? []. }
    destruct Hinv as ((_ & _ & _ & H) & _). rewrite (H ins Hin Ho).
    destruct (parse_inst_inv _ _ _ _ PARSE) as (_ & _ & Hlt & _). destruct (Hlt ins Hin) as [_ L].
    apply Z.mod_small. split; [lia|]. eapply Z.lt_trans; [|apply (Z.pow_lt_mono_r 2 31 32); lia]. lia.
  Qed.

  Theorem load_ok : prog_ok prog (a_const env) (a_dest env).
  Proof.
    destruct (parse_inst_inv _ _ _ _ PARSE) as (_ & _ & Hlt & Hnd & Hdst & Hio & Hjd).
    assert (CW : forall ins, In ins (p_insts st) -> is_word (inst_const (p_int st) ins)).
    { intros ins Hin. destruct (has_imm_data (i_op ins)) eqn:Eh.
      - rewrite (const_of ins Hin Eh). apply (word_of_len (min_imm_len (i_op ins))); [apply min_imm_le32|apply push_value_range, BYTES].
      - unfold inst_const. rewrite Eh. destruct ((i_op ins =? OP_JUMPDEST) || (i_op ins =? OP_PC)) eqn:Eo.
        + rewrite pc_data by (auto; lia). destruct (Hlt ins Hin). split; [lia|].
          eapply Z.lt_trans; [|apply (Z.pow_lt_mono_r 2 31 256); lia]. lia.
        + split; [lia|reflexivity]. }
    assert (NI : forall i d, nth_error prog i = Some d -> d_op d <> 0 -> exists ins, nth_error (p_insts st) i = Some ins /\ In ins (p_insts st) /\ d = idata_of info ins).
    { intros i d H Hne. destruct (pad_nth _ _ _ _ H) as [(ins & X & ->)|[_ ->]].
      - exists ins. split; [exact X|]. split; [eapply nth_error_In; eauto|reflexivity].
      - exfalso. apply Hne. reflexivity. }
    assert (C8 : forall i d, nth_error prog i = Some d -> 0xe6 <= d_op d <= 0xe8 ->
       exists ins, nth_error (p_insts st) i = Some ins /\ In ins (p_insts st) /\ d = idata_of info ins /\ a_const env i = evm_push_value code (i_pc ins) 1).
    { intros i d H Ho. destruct (NI i d H ltac:(lia)) as (ins & X1 & X2 & ->). exists ins. split; [exact X1|]. split; [exact X2|]. split; [reflexivity|].
      cbn [d_op idata_of] in Ho. cbn. rewrite X1. rewrite (const_of ins X2).
      - f_equal. unfold min_imm_len. destruct ((0x60 <=? i_op ins) && (i_op ins <=? 0x7f)) eqn:E1; [lia|].
        destruct ((0xe6 <=? i_op ins) && (i_op ins <=? 0xe8)) eqn:E2; [reflexivity|lia].
      - unfold has_imm_data, OP_PUSH0, OP_PUSH32, OP_DUPN, OP_EXCHANGE. lia. }
    constructor.
    - intros i. cbn. destruct (nth_error (p_insts st) i) as [ins|] eqn:E; [apply CW; eapply nth_error_In; eauto|split; [lia|reflexivity]].
    - intros i d H Ho. destruct (C8 i d H Ho) as (ins & _ & _ & _ & ->). apply (push_value_range code (i_pc ins) 1 BYTES).
    - intros v j H. cbn in H. unfold program_dest in H. destruct ((0 <=? v) && (v <? Z.of_nat (length code)) && is_valid_jump st (Z.to_nat v)) eqn:E; [|discriminate].
      apply andb_true_iff in E as [_ E]. unfold is_valid_jump in E. apply existsb_exists in E as (d & Hd & Ed). apply Nat.eqb_eq in Ed. subst d.
      destruct (Hdst _ Hd) as (ins & X1 & X2 & X3). destruct (pc_index_spec _ _ _ H) as (ins' & Y1 & Y2).
      assert (ins' = ins) by (eapply nodup_pc; eauto using nth_error_In; congruence). subst ins'.
      exists (idata_of info ins). split; [apply pad_nth_old, Y1|exact X3].
    - intros i d H Hact.
      destruct (Z.eq_dec (d_op d) 0) as [E0|Hne].
      { destruct (pad_nth _ _ _ _ H) as [(ins & X & ->)|[_ ->]]; [|cbn; unfold OP_STOP; repeat split; intros; try discriminate; lia].
        cbn [d_op idata_of] in E0. cbn [d_io idata_of d_op].
        destruct (Hio ins) as (_ & imm & Ei & _); [eapply nth_error_In; eauto|]. rewrite Ei, E0.
        destruct (active_of info 0); unfold compute_stack_io; cbn [Z.eqb]; change (0 =? OP_DUPN) with false; change (0 =? OP_SWAPN) with false; change (0 =? OP_EXCHANGE) with false; cbn match.
        - destruct (tk_pos _ _ TK 0). repeat split; try lia; auto.
        - cbn. repeat split; lia. }
      destruct (NI i d H Hne) as (ins & X1 & X2 & ->). cbn [d_op d_io d_flags idata_of f_disabled f_unknown] in *.
      destruct (Hio ins X2) as (_ & imm & Ei & Himm).
      assert (Act : active_of info (i_op ins) = true) by (unfold active_of; destruct (oi_unknown _), (oi_disabled _); try discriminate; reflexivity).
      rewrite Act in *. rewrite Ei.
      assert (ByteI : is_8024 (i_op ins) = true -> a_const env i = imm_u8 imm /\ 0 <= imm_u8 imm < 256).
      { intros H8. rewrite (Himm eq_refl H8). split; [|apply (push_value_range code (i_pc ins) 1 BYTES)].
        unfold is_8024, OP_DUPN, OP_EXCHANGE in H8. cbn. rewrite X1, (const_of ins X2).
        - f_equal. unfold min_imm_len. destruct ((0x60 <=? i_op ins) && (i_op ins <=? 0x7f)) eqn:E1; [lia|]. rewrite H8. reflexivity.
        - unfold has_imm_data, OP_PUSH0, OP_PUSH32, OP_DUPN, OP_EXCHANGE. lia. }
      assert (Other : is_8024 (i_op ins) = false -> compute_stack_io stack_io (i_op ins) imm = stack_io (i_op ins)).
      { unfold is_8024, compute_stack_io, OP_DUPN, OP_SWAPN, OP_EXCHANGE. intros H8.
        destruct (i_op ins =? 0xe6) eqn:E1; [lia|]. destruct (i_op ins =? 0xe7) eqn:E2; [lia|]. destruct (i_op ins =? 0xe8) eqn:E3; [lia|reflexivity]. }
      assert (Hpos : 0 <= fst (compute_stack_io stack_io (i_op ins) imm) /\ 0 <= snd (compute_stack_io stack_io (i_op ins) imm)).
      { destruct (is_8024 (i_op ins)) eqn:E8; [|rewrite Other by auto; apply (tk_pos _ _ TK)].
        destruct (ByteI eq_refl) as [_ B]. unfold compute_stack_io.
        destruct (i_op ins =? OP_DUPN); [|destruct (i_op ins =? OP_SWAPN); [|destruct (i_op ins =? OP_EXCHANGE)]].
        - destruct (decode_single_eip _ B) as [(n & -> & _)|[-> _]]; cbn; lia.
        - destruct (decode_single_eip _ B) as [(n & -> & _)|[-> _]]; cbn; lia.
        - destruct (decode_pair_eip _ B) as [(n & m & -> & _)|[-> _]]; cbn; lia.
        - apply (tk_pos _ _ TK). }
      destruct Hpos as [P1 P2].
      assert (N8 : ~ (0xe6 <= i_op ins <= 0xe8) -> is_8024 (i_op ins) = false) by (unfold is_8024, OP_DUPN, OP_EXCHANGE; lia).
      split; [exact P1|]. split; [exact P2|].
      split; [intros Ho; rewrite Other by (apply N8; lia); apply (tk_push _ _ TK), Ho|].
      split; [intros Ho; rewrite Other by (apply N8; lia); rewrite Ho; apply (tk_pop _ _ TK)|].
      split; [intros Ho; rewrite Other by (apply N8; lia); apply (tk_dup _ _ TK), Ho|].
      split; [intros Ho; rewrite Other by (apply N8; lia); apply (tk_swap _ _ TK), Ho|].
      split.
      { intros Ho n Hn. destruct ByteI as [B1 B2]; [rewrite Ho; reflexivity|]. rewrite B1 in Hn.
        unfold compute_stack_io. rewrite Ho. change (0xe6 =? OP_DUPN) with true. cbn match.
        destruct (decode_single_eip _ B2) as [(n' & -> & E & _)|[_ E]]; congruence. }
      split.
      { intros Ho n Hn. destruct ByteI as [B1 B2]; [rewrite Ho; reflexivity|]. rewrite B1 in Hn.
        unfold compute_stack_io. rewrite Ho. change (0xe7 =? OP_DUPN) with false. change (0xe7 =? OP_SWAPN) with true. cbn match.
        destruct (decode_single_eip _ B2) as [(n' & -> & E & _)|[_ E]]; congruence. }
      split.
      { intros Ho n m Hn. destruct ByteI as [B1 B2]; [rewrite Ho; reflexivity|]. rewrite B1 in Hn.
        unfold compute_stack_io. rewrite Ho. change (0xe8 =? OP_DUPN) with false. change (0xe8 =? OP_SWAPN) with false. change (0xe8 =? OP_EXCHANGE) with true. cbn match.
        destruct (decode_pair_eip _ B2) as [(n' & m' & -> & E & _)|[_ E]]; congruence. }
      destruct (tk_jumps _ _ TK) as (J1 & J2 & J3).
      split; [intros Ho; rewrite Other by (apply N8; lia); rewrite Ho; exact J1|].
      split; [intros Ho; rewrite Other by (apply N8; lia); rewrite Ho; exact J2|].
      intros Ho; rewrite Other by (apply N8; lia); rewrite Ho; exact J3.
    - intros i d H Ho. destruct (NI i d H ltac:(lia)) as (ins & _ & _ & ->). cbn [d_op d_flags idata_of f_disabled f_unknown] in *.
      destruct (tk_jump _ _ TK _ Ho) as [-> ->]. reflexivity.
    - intros i d H Hact. destruct (pad_nth _ _ _ _ H) as [(ins & X & ->)|[_ ->]]; [|discriminate Hact].
      destruct (Hio ins) as (_ & imm & Ei & _); [eapply nth_error_In; eauto|]. cbn [d_io d_flags idata_of f_disabled f_unknown] in *.
      rewrite Ei. unfold active_of. destruct (oi_unknown (info (i_op ins))), (oi_disabled (info (i_op ins))); try discriminate; reflexivity.
  Qed.

  (** Destinations are the JUMPDEST instructions, told apart by their pcs. *)
  Lemma load_dests v j : a_dest env v = Some j <-> (exists d, nth_error prog j = Some d /\ d_op d = 0x5b) /\ a_const env j = v.
  Proof.
    destruct (parse_inst_inv _ _ _ _ PARSE) as (_ & _ & Hlt & Hnd & Hdst & Hio & Hjd).
    assert (CJ : forall ins, In ins (p_insts st) -> i_op ins = OP_JUMPDEST -> inst_const (p_int st) ins = Z.of_nat (i_pc ins)).
    { intros ins Hin Ho. unfold inst_const. rewrite Ho. cbn. apply pc_data; auto. }
    split.
    - intros H. split; [eapply po_dest; [exact load_ok|exact H]|].
      cbn in H. unfold program_dest in H. destruct ((0 <=? v) && (v <? Z.of_nat (length code)) && is_valid_jump st (Z.to_nat v)) eqn:E; [|discriminate].
      apply andb_true_iff in E as [E0 E]. unfold is_valid_jump in E. apply existsb_exists in E as (d & Hd & Ed). apply Nat.eqb_eq in Ed. subst d.
      destruct (Hdst _ Hd) as (ins & X1 & X2 & X3). destruct (pc_index_spec _ _ _ H) as (ins' & Y1 & Y2).
      assert (ins' = ins) by (eapply nodup_pc; eauto using nth_error_In; congruence). subst ins'.
      cbn. rewrite Y1, (CJ ins X1 X3). lia.
    - intros [(d & Hn & Ho) Hc]. destruct (pad_nth _ _ _ _ Hn) as [(ins & X & ->)|[_ ->]]; [|discriminate Ho].
      cbn in Ho. pose proof (nth_error_In _ _ X) as Hin. cbn in Hc. rewrite X, (CJ ins Hin Ho) in Hc. subst v.
      cbn. unfold program_dest. rewrite Nat2Z.id. destruct (Hlt ins Hin) as [_ L].
      assert (V : is_valid_jump st (i_pc ins) = true).
      { unfold is_valid_jump. apply existsb_exists. exists (i_pc ins). split; [apply Hjd; auto|apply Nat.eqb_refl]. }
      rewrite V. replace ((0 <=? Z.of_nat (i_pc ins)) && (Z.of_nat (i_pc ins) <? Z.of_nat (length code))) with true by lia. cbn [andb].
      destruct (pc_index (i_pc ins) (p_insts st)) as [k|] eqn:Ek; [|exfalso; revert Ek; apply (pc_index_total _ _ ins); auto].
      destruct (pc_index_spec _ _ _ Ek) as (ins' & Y1 & Y2). f_equal.
      assert (N : NoDup (p_insts st)) by (eapply NoDup_map_inv; exact Hnd).
      assert (ins' = ins) by (eapply nodup_pc; eauto using nth_error_In; congruence). subst ins'.
      rewrite NoDup_nth_error in N. apply N; [apply nth_error_Some; congruence|congruence].
  Qed.
  Lemma load_pcs j d : nth_error prog j = Some d -> d_op d = 0x5b -> a_const env j < 2 ^ 64 - 1.
  Proof.
    intros Hn Ho. destruct (parse_inst_inv _ _ _ _ PARSE) as (_ & _ & Hlt & _).
    destruct (pad_nth _ _ _ _ Hn) as [(ins & X & ->)|[_ ->]]; [|discriminate Ho].
    cbn in Ho. pose proof (nth_error_In _ _ X) as Hin. cbn -[Z.pow]. rewrite X. unfold inst_const.
    assert (E : has_imm_data (i_op ins) = false) by (rewrite Ho; reflexivity). rewrite E.
    assert (E2 : (i_op ins =? OP_JUMPDEST) || (i_op ins =? OP_PC) = true) by (rewrite Ho; reflexivity). rewrite E2.
    rewrite pc_data by (auto; left; exact Ho). destruct (Hlt ins Hin) as [_ L]. change (2 ^ 64 - 1) with 18446744073709551615. change (2 ^ 31) with 2147483648 in LEN. lia.
  Qed.
  Lemma load_next i d : nth_error prog i = Some d -> d_op d = 0x57 -> (S i < length prog)%nat.
  Proof.
    intros Hn Ho. destruct (pad_nth _ _ _ _ Hn) as [(ins & X & ->)|[_ ->]]; [|discriminate Ho]. cbn in Ho.
    pose proof (nth_lt _ _ _ X) as Hl.
    assert (E0 : exists dl, last (map Some (map (idata_of info) (p_insts st))) None = Some dl /\ (S i = length (p_insts st) -> dl = idata_of info ins)).
    { destruct (p_insts st) as [|x l] eqn:El; [cbn in Hl; lia|].
      destruct (@exists_last _ (x :: l)) as (l' & z & Ez); [discriminate|]. rewrite Ez in *.
      rewrite !map_app. cbn [map]. rewrite last_last. exists (idata_of info z). split; [reflexivity|].
      intros EL. rewrite app_length in EL. cbn in EL. rewrite nth_error_app2 in X by lia.
      replace (i - length l')%nat with 0%nat in X by lia. cbn in X. congruence. }
    destruct E0 as (dl & E0 & E1). unfold pad_insts. rewrite E0.
    destruct (can_fall_through dl) eqn:F; [rewrite app_length, map_length; cbn; lia|]. rewrite map_length.
    destruct (Nat.eq_dec (S i) (length (p_insts st))) as [EL|NE]; [|lia]. exfalso. rewrite (E1 EL) in F.
    destruct (tk_jump _ _ TK (i_op ins) (or_intror Ho)) as [T1 T2].
    unfold can_fall_through, is_diverging, has_const_jumpi_condition in F. cbn in F. rewrite T1, T2, Ho in F. discriminate F.
  Qed.
End Load.
