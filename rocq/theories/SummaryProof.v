(** Lemmas about section summaries. *)
From Verif Require Import OpcodeSpec SectionsModel SectionsProof SummarySpec DseProof StructProof CfgProof ProgramProof FlowSpec BlockProof.
From Coq Require Import ZifyBool.
Import ListNotations.
Open Scope Z_scope.

Lemma leaves_section_eq istanbul d : leaves_section istanbul d = ends_section istanbul d.
Proof.
  unfold leaves_section, ends_section, may_suspend, is_branching, is_jump, is_diverging, requires_gasleft.
  unfold OP_CALL, OP_CALLCODE, OP_DELEGATECALL, OP_STATICCALL, OP_CREATE, OP_CREATE2, OP_JUMP, OP_JUMPI, OP_STOP, OP_RETURN, OP_REVERT, OP_INVALID, OP_SELFDESTRUCT, OP_GAS, OP_SSTORE.
  cbn [existsb]. destruct (f_disabled (d_flags d)), (f_unknown (d_flags d)), (f_invalid (d_flags d)), istanbul; lia.
Qed.
Lemma lands_eq dyn d : lands dyn d = is_reachable_jumpdest dyn d.
Proof. reflexivity. Qed.

(** The section that starts at an instruction: [stops] cuts where [sect] cuts. *)
Lemma sect_stops dyn istanbul l : sect dyn istanbul false l = if stops dyn l then [] else sect dyn istanbul true l.
Proof.
  induction l as [|d l IH]; [reflexivity|]. destruct (is_dead d) eqn:D.
  - rewrite stops_cons_dead by exact D. cbn [sect]. unfold is_dead in D. rewrite D. exact IH.
  - rewrite stops_cons_live by exact D. cbn [sect]. unfold is_dead in D. rewrite D. cbn [negb andb]. rewrite lands_eq.
    destruct (is_reachable_jumpdest dyn d); reflexivity.
Qed.
Lemma sect_live dyn istanbul d l : is_dead d = false ->
  sect dyn istanbul true (d :: l) = d_io d :: (if ends_section istanbul d || stops dyn l then [] else sect dyn istanbul true l).
Proof.
  intros D. cbn [sect]. unfold is_dead in D. rewrite D. cbn [negb andb]. rewrite leaves_section_eq. destruct (ends_section istanbul d); [reflexivity|].
  cbn [orb]. rewrite sect_stops. reflexivity.
Qed.
Lemma deepest_shift l : forall h k, Z.max (Z.max 0 (- k)) (deepest l h - k) = Z.max (Z.max 0 (- k)) (deepest l (h + k)).
Proof.
  induction l as [|[i o] l IH]; intros h k; cbn [deepest]; [lia|].
  specialize (IH (h - i + o) k). replace (h - i + o + k) with (h + k - i + o) in IH by lia. lia.
Qed.
Lemma deepest_nonneg l h : 0 <= deepest l h.
Proof. revert h. induction l as [|[i o] l IH]; intros h; cbn [deepest]; [lia|]. specialize (IH (h - i + o)). lia. Qed.
Lemma highest_nonneg l h : 0 <= highest l h.
Proof. revert h. induction l as [|[i o] l IH]; intros h; cbn [highest]; [lia|]. specialize (IH (h - i + o)). lia. Qed.
Fixpoint top (l : list (Z * Z)) (h : Z) : Z := match l with [] => h | (i, o) :: l' => Z.max h (top l' (h - i + o)) end.
Lemma top_shift l : forall h k, top l (h + k) = top l h + k.
Proof.
  induction l as [|[i o] l IH]; intros h k; cbn [top]; [reflexivity|].
  replace (h + k - i + o) with (h - i + o + k) by lia. rewrite IH. lia.
Qed.
Lemma highest_top l : forall h, Z.max (Z.max 0 h) (highest l h) = Z.max 0 (top l h).
Proof. induction l as [|[i o] l IH]; intros h; cbn [highest top]; [lia|]. specialize (IH (h - i + o)). lia. Qed.

Section Exact.
  Variables (dyn istanbul : bool).
  Lemma need_exact l : Forall io_ok l -> sec_need dyn istanbul l = deepest (sect dyn istanbul true l) 0.
  Proof.
    induction 1 as [|d l IO _ IH]; [reflexivity|]. destruct (is_dead d) eqn:D.
    - cbn [sec_need sect]. rewrite D. unfold is_dead in D. rewrite D. exact IH.
    - rewrite sect_live by exact D. cbn [sec_need]. rewrite D. destruct IO as [I0 I1]. unfold delta in *. destruct (d_io d) as [i o]. cbn [fst snd deepest] in *.
      destruct (ends_section istanbul d || stops dyn l); [cbn [deepest]; lia|]. rewrite IH.
      pose proof (deepest_shift (sect dyn istanbul true l) 0 (0 - i + o)) as H. rewrite Z.add_0_l in H. pose proof (deepest_nonneg (sect dyn istanbul true l) (0 - i + o)). lia.
  Qed.
  Lemma growth_exact l : Forall io_ok l -> sec_growth dyn istanbul l = highest (sect dyn istanbul true l) 0.
  Proof.
    induction 1 as [|d l IO _ IH]; [reflexivity|]. destruct (is_dead d) eqn:D.
    - cbn [sec_growth sect]. rewrite D. unfold is_dead in D. rewrite D. exact IH.
    - rewrite sect_live by exact D. cbn [sec_growth]. rewrite D. destruct IO as [I0 I1]. unfold delta in *. destruct (d_io d) as [i o]. cbn [fst snd highest] in *.
      destruct (ends_section istanbul d || stops dyn l); [cbn [highest]; lia|]. rewrite IH.
      pose proof (highest_top (sect dyn istanbul true l) 0). pose proof (highest_top (sect dyn istanbul true l) (0 - i + o)).
      pose proof (top_shift (sect dyn istanbul true l) 0 (0 - i + o)) as H1. rewrite Z.add_0_l in H1.
      pose proof (highest_nonneg (sect dyn istanbul true l) 0). pose proof (highest_nonneg (sect dyn istanbul true l) (0 - i + o)). lia.
  Qed.
  Lemma clamp_exact n g : 0 <= n -> (n < 2 ^ 16 -> fst (clamp_stack n g) = n) /\ (g < 2 ^ 15 -> snd (clamp_stack n g) = g).
  Proof.
    intros Hn. unfold clamp_stack, U16_MAX, I16_MAX. change (2 ^ 16) with 65536. change (2 ^ 15) with 32768. cbn [fst snd].
    split; intros H; [destruct ((0 <=? n) && (n <=? 65536 - 1)) eqn:E|destruct (g <=? 32768 - 1) eqn:E]; lia.
  Qed.
  Lemma skipn_Forall {A} (P : A -> Prop) n l : Forall P l -> Forall P (skipn n l).
  Proof. revert l. induction n; intros [|x l] H; cbn; auto. inversion H; auto. Qed.
  Lemma clamp_need n g : 0 <= n -> fst (clamp_stack n g) = Z.min n (2 ^ 16 - 1).
  Proof. intros H. unfold clamp_stack, U16_MAX. change (2 ^ 16) with 65536. cbn [fst]. destruct ((0 <=? n) && (n <=? 65536 - 1)) eqn:E; lia. Qed.
  Lemma clamp_growth n g : snd (clamp_stack n g) = Z.min g (2 ^ 15 - 1).
  Proof. unfold clamp_stack, I16_MAX. change (2 ^ 15) with 32768. cbn [snd]. destruct (g <=? 32768 - 1) eqn:E; lia. Qed.

  Lemma head_exact extra l k d : Forall io_ok l -> entry dyn istanbul l k ->
    nth_error (construct_sections dyn istanbul extra l) k = Some d ->
    f_head (d_flags d) = true /\
    d_stack_section d = (Z.min (deepest (sect dyn istanbul true (skipn k l)) 0) (2 ^ 16 - 1),
                         Z.min (highest (sect dyn istanbul true (skipn k l)) 0) (2 ^ 15 - 1)).
  Proof.
    intros IO EN H. destruct (entry_nth dyn istanbul extra l IO k EN) as (d0 & H0 & D0 & H1). rewrite H1 in H. injection H as <-.
    unfold mark. rewrite need_exact, growth_exact by (apply skipn_Forall; exact IO).
    set (n := deepest _ _). set (g := highest _ _).
    split; [reflexivity|]. cbn [d_stack_section set_stack_section]. rewrite <- (clamp_need n g), <- (clamp_growth n g) by apply deepest_nonneg. apply surjective_pairing.
  Qed.
  Lemma nonhead extra l k d : Forall io_ok l -> ~ entry dyn istanbul l k -> nth_error l k = Some d ->
    nth_error (construct_sections dyn istanbul extra l) k = Some d.
  Proof.
    intros IO NE H. destruct (is_dead d) eqn:D; [|eapply nonentry_nth; eauto].
    rewrite construct_sections_go by exact IO. rewrite go_nth, H, D. reflexivity.
  Qed.
End Exact.

(** ** Bounds. *)
Lemma deepest_bound l : Forall evm_effect l -> forall h, deepest l h <= Z.max 0 (255 - h + 6 * Z.of_nat (length l)).
Proof.
  induction 1 as [|[i o] l [E1 [E2 E3]] _ IH]; intros h; cbn [deepest length fst snd] in *; [lia|]. specialize (IH (h - i + o)). lia.
Qed.
Lemma highest_bound l : Forall evm_effect l -> forall h, highest l h <= Z.max 0 (h + Z.of_nat (length l)).
Proof.
  induction 1 as [|[i o] l [E1 [E2 E3]] _ IH]; intros h; cbn [highest length fst snd] in *; [lia|]. specialize (IH (h - i + o)). lia.
Qed.
Lemma sect_sub dyn istanbul l : forall first, (length (sect dyn istanbul first l) <= length l)%nat /\
  forall P, Forall P (map d_io l) -> Forall P (sect dyn istanbul first l).
Proof.
  induction l as [|d l IH]; intros first; cbn [sect length map]; [split; auto|].
  destruct (f_dead (d_flags d)); [destruct (IH first); split; [lia|]; intros P X; inversion X; auto|].
  destruct (negb first && lands dyn d); [split; [cbn; lia|constructor]|].
  destruct (leaves_section istanbul d); [split; [cbn; lia|]; intros P H; inversion H; auto|].
  destruct (IH false). cbn [length]. split; [lia|]. intros P X; inversion X; auto.
Qed.

(** ** Loaded programs. *)
Definition byte_effects (x : Z) : bool :=
  match decode_single x with Some n => (0 <=? n) && (n <=? 254) | None => true end &&
  match decode_pair x with Some (_, m) => (0 <=? m) && (m <=? 254) | None => true end.
Lemma byte_effects_all : forallb byte_effects bytes = true. Proof. vm_compute. reflexivity. Qed.

Section Loaded.
  Context (info : Z -> opinfo) (stack_io : Z -> Z * Z) (code : list Z) (key : Z -> Z) (lim : Z).
  Hypothesis TK : tables_ok info stack_io.
  Hypothesis EFF : forall op, evm_effect (stack_io op).
  Hypothesis BYTES : Forall is_byte code.
  Hypothesis LEN : Z.of_nat (length code) < 2 ^ 31.
  Variables (env : aenv) (prog : list idata).
  Hypothesis LD : load info stack_io key lim code = Some (env, prog).

  Lemma load_inv : exists st, parse (active_of info) stack_io code = Some st /\ env = program_env code st key lim /\
    prog = pad_insts (map (idata_of info) (p_insts st)).
  Proof.
    unfold load in LD. destruct (parse (active_of info) stack_io code) as [st|]; [|discriminate].
    exists st. split; [reflexivity|]. split; congruence.
  Qed.
  Lemma loaded_effect i d : nth_error prog i = Some d -> evm_effect (d_io d) /\ f_noop (d_flags d) = false /\
    f_head (d_flags d) = false /\ d_gas_section d = 0.
  Proof.
    destruct load_inv as (st & P & _ & ->). intros H. destruct (pad_nth _ _ _ _ H) as [(ins & Hi & ->)|[_ ->]].
    2:{ unfold evm_effect; cbn. lia. }
    cbn. split; [|auto]. destruct (parse_inst_inv _ _ _ _ P) as (_ & _ & _ & _ & _ & IO & _).
    destruct (IO ins (nth_error_In _ _ Hi)) as (_ & im & -> & V). destruct (active_of info (i_op ins)) eqn:A; [|unfold evm_effect; cbn; lia].
    specialize (V eq_refl). unfold compute_stack_io.
    assert (B : is_8024 (i_op ins) = true -> byte_effects (imm_u8 im) = true).
    { intros E. rewrite (V E). pose proof (push_value_range code (i_pc ins) 1 BYTES) as R. change (256 ^ Z.of_nat 1) with 256 in R.
      exact (proj1 (forallb_forall _ _) byte_effects_all _ (in_bytes _ R)). }
    unfold byte_effects in B. unfold is_8024, OP_DUPN, OP_SWAPN, OP_EXCHANGE in *.
    destruct (Z.eqb_spec (i_op ins) 0xe6) as [E|_].
    { assert (X : (0xe6 <=? i_op ins) && (i_op ins <=? 0xe8) = true) by (clear - E; lia). specialize (B X). apply andb_prop in B as [B _].
      destruct (decode_single _); unfold evm_effect; cbn; lia. }
    destruct (Z.eqb_spec (i_op ins) 0xe7) as [E|_].
    { assert (X : (0xe6 <=? i_op ins) && (i_op ins <=? 0xe8) = true) by (clear - E; lia). specialize (B X). apply andb_prop in B as [B _].
      destruct (decode_single _); unfold evm_effect; cbn; lia. }
    destruct (Z.eqb_spec (i_op ins) 0xe8) as [E|_]; [|apply EFF].
    assert (X : (0xe6 <=? i_op ins) && (i_op ins <=? 0xe8) = true) by (clear - E; lia). specialize (B X). apply andb_prop in B as [_ B].
    destruct (decode_pair _) as [[? ?]|]; unfold evm_effect; cbn; lia.
  Qed.
  Lemma loaded_length : (length prog <= S (length code))%nat.
  Proof.
    destruct load_inv as (st & P & _ & ->). destruct (parse_inst_inv _ _ _ _ P) as (_ & _ & LT & ND & _).
    assert (L : (length (p_insts st) <= length code)%nat).
    { rewrite <- (map_length i_pc), <- (seq_length (length code) 0). apply NoDup_incl_length; [exact ND|].
      intros x Hx. apply in_map_iff in Hx as (ins & <- & Hx). apply in_seq. destruct (LT ins Hx). lia. }
    unfold pad_insts. destruct (last _ _) as [d|]; [destruct (can_fall_through d)|]; rewrite ?app_length, ?map_length; cbn [length]; lia.
  Qed.

  Variable p : bc.
  Hypothesis AN : analyze env prog = Some p.
  Lemma loaded_keeps : kept_list prog (b_insts p) /\ dead_struct (b_insts p) /\ b_blocks p = blocks_of p.
  Proof.
    apply (analyze_well env); [|exact AN]. intros i d H. destruct load_inv as (st & P & _ & ->).
    exact (proj2 (proj2 (proj2 (proj2 (load_raw info st i d H))))).
  Qed.
  Lemma analysed_effect i d : nth_error (b_insts p) i = Some d -> evm_effect (d_io d) /\ f_noop (d_flags d) = false /\
    f_head (d_flags d) = false /\ d_gas_section d = 0.
  Proof.
    intros H. destruct loaded_keeps as ([L K] & _). destruct (K i d H) as (d0 & H0 & KK). destruct (loaded_effect i d0 H0) as (A & B & C & D).
    unfold keeps in KK. destruct KK as (_ & E1 & _ & _ & E2 & _ & _ & _ & E3 & E4 & _). rewrite E1, E2, E3, E4. auto.
  Qed.

  Lemma analysed_items bl l : In bl (b_blocks p) -> items_at (a_const env) p (blk_insts bl) = Some l ->
    Forall item_ok l /\ Forall arity_ok l /\ Forall evm_effect (map (fun t => d_io (it_d t)) l) /\ (length l <= length prog)%nat.
  Proof.
    intros IN IT. unfold blk_insts in IT. apply items_spec in IT as (LL & HL).
    assert (NTH : forall t, In t l -> exists i, item_at (a_const env) p i = Some t).
    { intros t Ht. apply In_nth_error in Ht as (k & Hk). assert ((k < length l)%nat) by (apply nth_error_Some; congruence).
      rewrite LL in H. specialize (HL k H). rewrite Hk in HL. eauto. }
    destruct loaded_keeps as ([LP K] & DS & BL).
    assert (PO : prog_ok prog (a_const env) (a_dest env)).
    { destruct load_inv as (st & P & -> & ->). exact (load_ok info stack_io code key lim TK BYTES LEN st P). }
    assert (FACT : forall t, In t l -> item_ok t /\ arity_ok t /\ evm_effect (d_io (it_d t))).
    { intros t Ht. destruct (NTH t Ht) as (i & E). unfold item_at in E. destruct (nth_error (b_insts p) i) as [d|] eqn:Hd; [|discriminate].
      injection E as <-. cbn [it_d]. destruct (analysed_effect i d Hd) as (EF & NO & _). destruct (K i d Hd) as (d0 & H0 & KK).
      unfold keeps in KK. destruct KK as (EO & EI & _ & _ & _ & _ & ED & EU & _).
      split; [|split; [|exact EF]].
      - split; [exact NO|]. cbn [it_d it_imm]. rewrite EO. intros R. exact (po_byte _ _ _ PO i d0 H0 R).
      - unfold arity_ok. cbn [it_d it_imm]. destruct EF as ((X1 & X2) & X3 & X4). split; [exact X1|]. split; [exact X3|]. rewrite EO, EI, ED, EU. intros OFF.
        destruct (po_io _ _ _ PO i d0 H0 OFF) as (_ & _ & _ & Q1 & Q2 & Q3 & Q4 & Q5 & Q6 & _).
        unfold shape_of. destruct ((0x80 <=? d_op d0) && (d_op d0 <=? 0x8f)) eqn:S1; [rewrite Q2 by lia; f_equal; lia|].
        destruct ((0x90 <=? d_op d0) && (d_op d0 <=? 0x9f)) eqn:S2; [rewrite Q3 by lia; f_equal; lia|].
        destruct (Z.eqb_spec (d_op d0) 0xe6) as [S3|_]; [destruct (eip_single _) as [n|] eqn:E; [exact (Q4 S3 n eq_refl)|exact Logic.I]|].
        destruct (Z.eqb_spec (d_op d0) 0xe7) as [S3|_]; [destruct (eip_single _) as [n|] eqn:E; [exact (Q5 S3 n eq_refl)|exact Logic.I]|].
        destruct (Z.eqb_spec (d_op d0) 0xe8) as [S3|_]; [destruct (eip_pair _) as [[n m]|] eqn:E; [exact (Q6 S3 n m eq_refl)|exact Logic.I]|].
        clear OFF. destruct (_ || _); [exact Logic.I|]. destruct (Z.eqb_spec (d_op d0) 0x50) as [S4|_]; [exact (Q1 S4)|exact Logic.I]. }
    split; [apply Forall_forall; intros t Ht; apply (FACT t Ht)|]. split; [apply Forall_forall; intros t Ht; apply (FACT t Ht)|].
    split; [apply Forall_forall; intros x Hx; apply in_map_iff in Hx as (t & <- & Ht); apply (FACT t Ht)|].
    rewrite LL, <- LP. assert (In (bk_start bl, bk_end bl) (ranges (b_dyn p) (b_insts p))).
    { rewrite BL in IN. unfold blocks_of in IN. apply in_map_iff in IN as (r & <- & Hr). cbn. rewrite <- surjective_pairing. exact Hr. }
    destruct (ranges_spec (b_dyn p) (b_insts p) DS) as (WF & _). apply In_nth_error in H as (b & Hb).
    destruct (wf_ranges_nth _ _ _ _ _ WF Hb). cbn in *. lia.
  Qed.
End Loaded.

(** Codes of fewer than 10880 bytes: no summary saturates. *)
Definition SMALL : Z := 10879.
Lemma small_exact (l : list (Z * Z)) : Forall evm_effect l -> Z.of_nat (length l) <= SMALL + 1 -> deepest l 0 < 2 ^ 16 /\ highest l 0 < 2 ^ 15.
Proof.
  intros E L. pose proof (deepest_bound l E 0). pose proof (highest_bound l E 0). unfold SMALL in L.
  change (2 ^ 16) with 65536. change (2 ^ 15) with 32768. lia.
Qed.
