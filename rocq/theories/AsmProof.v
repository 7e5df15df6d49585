(** Lemmas for the assembler. *)
From Verif Require Import OpcodeModel OpcodeSpec OpcodeProof AsmModel AsmSpec.
From Coq Require Import ZifyBool ZifyNat.
Open Scope Z_scope.

(** ** Bytes *)

Lemma be_bytes_length n v : length (be_bytes n v) = n.
Proof. induction n; cbn [be_bytes length]; auto. Qed.

Lemma be_bytes_byte n v : Forall is_byte (be_bytes n v).
Proof.
  induction n; cbn [be_bytes]; constructor; auto. unfold is_byte. apply Z.mod_pos_bound; lia.
Qed.

Lemma be_bytes_value n v : 0 <= v -> evm_be (be_bytes n v) = v mod 256 ^ Z.of_nat n.
Proof.
  intros Hv. induction n as [|n IH]; cbn [be_bytes evm_be].
  - rewrite Z.pow_0_r, Z.mod_1_r. reflexivity.
  - rewrite be_bytes_length, IH.
    assert (0 < 256 ^ Z.of_nat n) by (apply Z.pow_pos_nonneg; lia).
    rewrite Nat2Z.inj_succ, Z.pow_succ_r by lia.
    rewrite (Z.mul_comm 256). rewrite Z.rem_mul_r by lia. ring.
Qed.

Lemma pow256 n : 256 ^ Z.of_nat n = 2 ^ (8 * Z.of_nat n).
Proof. rewrite Z.pow_mul_r by lia. reflexivity. Qed.

Lemma bytes_len_ub v : 0 <= v -> v < 256 ^ Z.of_nat (bytes_len v).
Proof.
  intros Hv. unfold bytes_len. destruct (Z.eqb_spec v 0) as [-> |H]; [reflexivity|].
  rewrite pow256. assert (0 <= Z.log2 v) by apply Z.log2_nonneg.
  pose proof (Z.div_mod (Z.log2 v) 8 ltac:(lia)). pose proof (Z.mod_pos_bound (Z.log2 v) 8 ltac:(lia)).
  apply Z.log2_lt_pow2; [lia|]. rewrite Z2Nat.id; lia.
Qed.

Lemma bytes_len_lb v n : 0 <= v < 256 ^ Z.of_nat n -> (bytes_len v <= n)%nat.
Proof.
  intros [Hv Hn]. unfold bytes_len. destruct (Z.eqb_spec v 0) as [-> |H]; [lia|].
  rewrite pow256 in Hn. apply Z.log2_lt_pow2 in Hn; [|lia].
  assert (0 <= Z.log2 v) by apply Z.log2_nonneg.
  assert (Z.log2 v / 8 < Z.of_nat n) by (apply Z.div_lt_upper_bound; lia). lia.
Qed.

Lemma bytes_len_zero v : 0 <= v -> bytes_len v = 0%nat -> v = 0.
Proof.
  intros Hv H. pose proof (bytes_len_ub v Hv) as U. rewrite H in U. cbn in U. lia.
Qed.

Lemma min_push_width_len t : min_push_width t = bytes_len (Z.of_nat t).
Proof.
  unfold min_push_width, bytes_len. destruct (Nat.eqb_spec t 0) as [-> |H]; [reflexivity|].
  destruct (Z.eqb_spec (Z.of_nat t) 0); [lia|]. f_equal.
  replace (Z.log2 (Z.of_nat t) + 1 + 7) with (Z.log2 (Z.of_nat t) + 1 * 8) by lia.
  rewrite Z.div_add by lia. reflexivity.
Qed.

Lemma evm_be_lead k l : evm_be (repeat 0 k ++ l) = evm_be l.
Proof. induction k; cbn [repeat app evm_be]; lia. Qed.

Lemma encode_imm_spec v n bs : 0 <= v -> encode_imm v (Some n) = Some bs ->
  length bs = n /\ Forall is_byte bs /\ evm_be bs = v.
Proof.
  intros Hv. unfold encode_imm, trimmed. rewrite be_bytes_length.
  destruct (Nat.leb_spec (bytes_len v) n) as [L|L]; [|discriminate].
  intros [= <-]. rewrite app_length, repeat_length, be_bytes_length. split; [lia|]. split.
  - apply Forall_app; split; [|apply be_bytes_byte].
    apply Forall_forall. intros x Hx. apply repeat_spec in Hx. subst. split; lia.
  - rewrite evm_be_lead, be_bytes_value by auto. apply Z.mod_small. split; [auto|].
    apply bytes_len_ub; auto.
Qed.

Lemma encode_imm_ok v n : 0 <= v < 256 ^ Z.of_nat n -> exists bs, encode_imm v (Some n) = Some bs.
Proof.
  intros H. apply bytes_len_lb in H. unfold encode_imm, trimmed. rewrite be_bytes_length.
  destruct (Nat.leb_spec (bytes_len v) n); [eauto|lia].
Qed.

(** ** Parsing *)

(** The item a statement is parsed to. *)
Definition compiles (s : stmt) (it : item) : Prop :=
  match s with
  | SLabel name => it = ILabel name
  | SOp op => it = IInst op None PNone
  | SPushN op i => it = IInst op (Some i) (PFixed (Z.to_nat (op - 0x5f)))
  | SPush i => it = IInst 0 (Some i) PAuto
  | SDup n => (1 <= n <= 16 /\ it = IInst (0x80 + n - 1) None PNone) \/
      (17 <= n < 256 /\ exists raw, encode_single n = Some raw /\
        it = IInst 0xe6 (Some (Num raw)) (PFixed 1))
  | SSwap n => (1 <= n <= 16 /\ it = IInst (0x90 + n - 1) None PNone) \/
      (17 <= n < 256 /\ exists raw, encode_single n = Some raw /\
        it = IInst 0xe7 (Some (Num raw)) (PFixed 1))
  | SDupN n => 0 <= n < 256 /\ exists raw, encode_single n = Some raw /\
        it = IInst 0xe6 (Some (Num raw)) (PFixed 1)
  | SSwapN n => 0 <= n < 256 /\ exists raw, encode_single n = Some raw /\
        it = IInst 0xe7 (Some (Num raw)) (PFixed 1)
  | SExchange n m => 0 <= n < 256 /\ 0 <= m < 256 /\ exists raw, encode_pair n m = Some raw /\
        it = IInst 0xe8 (Some (Num raw)) (PFixed 1)
  end.

Lemma min_imm_zero op : min_imm_len op = 0%nat <-> ~ (0x60 <= op <= 0x7f) /\ ~ (0xe6 <= op <= 0xe8).
Proof.
  unfold min_imm_len. destruct ((0x60 <=? op) && (op <=? 0x7f)) eqn:E; [lia|].
  destruct ((0xe6 <=? op) && (op <=? 0xe8)) eqn:E2; lia.
Qed.

Lemma parse_item_spec toks it rest : Forall token_ok toks -> parse_item toks = Some (it, rest) ->
  exists s, toks = stmt_tokens s ++ rest /\ stmt_wf s /\ compiles s it.
Proof.
  destruct toks as [|[name|w|n|l|] toks]; intros Hok H; try discriminate.
  - cbn in H. injection H as <- <-. exists (SLabel name). cbn. auto.
  - inversion Hok as [|t0 ts0 Hw Hts]; subst. clear Hok. destruct w as [| | |op|]; cbn [parse_item] in H; try discriminate.
    + destruct toks as [|[| |n|l|] toks]; cbn in H; try discriminate; injection H as <- <-.
      * exists (SPush (Num n)). cbn. auto.
      * exists (SPush (Lab l)). cbn. auto.
    + destruct toks as [|[| |n|l|] toks]; cbn in H; try discriminate.
      inversion Hts as [|? ? Hn _]; subst. cbn in Hn.
      destruct (Z.ltb_spec n 256); [|discriminate].
      destruct (Z.ltb_spec n 1); [discriminate|].
      destruct (Z.leb_spec n 16).
      * injection H as <- <-. exists (SDup n). cbn -[Z.add]. split; [auto|]. split; [auto|]. left. split; [lia|reflexivity].
      * destruct (encode_single n) as [raw|] eqn:E; [|discriminate]. injection H as <- <-.
        exists (SDup n). cbn -[encode_single]. split; [auto|]. split; [auto|]. right. split; [lia|eauto].
    + destruct toks as [|[| |n|l|] toks]; cbn in H; try discriminate.
      inversion Hts as [|? ? Hn _]; subst. cbn in Hn.
      destruct (Z.ltb_spec n 256); [|discriminate].
      destruct (Z.ltb_spec n 1); [discriminate|].
      destruct (Z.leb_spec n 16).
      * injection H as <- <-. exists (SSwap n). cbn -[Z.add]. split; [auto|]. split; [auto|]. left. split; [lia|reflexivity].
      * destruct (encode_single n) as [raw|] eqn:E; [|discriminate]. injection H as <- <-.
        exists (SSwap n). cbn -[encode_single]. split; [auto|]. split; [auto|]. right. split; [lia|eauto].
    + destruct ((op =? OP_DUPN) || (op =? OP_SWAPN)) eqn:E1.
      { destruct toks as [|[| |n|l|] toks]; cbn in H; try discriminate.
        inversion Hts as [|? ? Hn _]; subst. cbn in Hn.
        destruct (Z.ltb_spec n 256); [|discriminate].
        destruct (encode_single n) as [raw|] eqn:E; [|discriminate]. injection H as <- <-.
        apply orb_true_iff in E1 as [E1|E1]; apply Z.eqb_eq in E1; subst op.
        - exists (SDupN n). cbn -[encode_single]. split; [auto|]. split; [auto|]. split; [lia|eauto].
        - exists (SSwapN n). cbn -[encode_single]. split; [auto|]. split; [auto|]. split; [lia|eauto]. }
      destruct (Z.eqb_spec op OP_EXCHANGE) as [-> |E2].
      { destruct toks as [|[| |n|l|] toks]; cbn in H; try discriminate.
        inversion Hts as [|? ? Hn Hts']; subst. cbn in Hn.
        destruct (Z.ltb_spec n 256); [|discriminate].
        destruct toks as [|[| |m|l|] toks]; cbn in H; try discriminate.
        inversion Hts' as [|? ? Hm _]; subst. cbn in Hm.
        destruct (Z.ltb_spec m 256); [|discriminate].
        destruct (encode_pair n m) as [raw|] eqn:E; [|discriminate]. injection H as <- <-.
        exists (SExchange n m). cbn -[encode_pair]. split; [auto|]. split; [auto|].
        split; [lia|]. split; [lia|eauto]. }
      unfold OP_DUPN, OP_SWAPN, OP_EXCHANGE in *.
      destruct (Nat.ltb_spec 0 (min_imm_len op)) as [L|L].
      * assert (Hop : 0x60 <= op <= 0x7f) by (unfold min_imm_len in L; destruct ((0x60 <=? op) && (op <=? 0x7f)) eqn:F; [lia|]; destruct ((0xe6 <=? op) && (op <=? 0xe8)) eqn:F2; lia).
        assert (Hl : min_imm_len op = Z.to_nat (op - 0x5f)) by (unfold min_imm_len; destruct ((0x60 <=? op) && (op <=? 0x7f)) eqn:F; [reflexivity|lia]).
        rewrite Hl in H.
        destruct toks as [|[| |n|l|] toks]; cbn in H; try discriminate; injection H as <- <-.
        -- exists (SPushN op (Num n)). cbn. auto.
        -- exists (SPushN op (Lab l)). cbn. auto.
      * assert (Hz : min_imm_len op = 0%nat) by lia. apply min_imm_zero in Hz.
        exists (SOp op). cbn [stmt_tokens stmt_wf compiles app].
        destruct toks as [|[| |n|l|] toks]; cbn in H; try discriminate; injection H as <- <-; auto.
Qed.

Lemma parse_items_spec fuel : forall toks items, Forall token_ok toks ->
  parse_loop_items fuel toks = Some items ->
  exists p, toks = program_tokens p /\ Forall stmt_wf p /\ Forall2 compiles p items.
Proof.
  induction fuel as [|fuel IH]; intros toks items Hok H.
  - destruct toks; [|discriminate]. injection H as <-. exists []. repeat split; constructor.
  - destruct toks as [|t toks]; [injection H as <-; exists []; repeat split; constructor|].
    cbn [parse_loop_items] in H.
    destruct (parse_item (t :: toks)) as [[it rest]|] eqn:E; [|discriminate].
    destruct (parse_loop_items fuel rest) as [its|] eqn:E2; [|discriminate]. injection H as <-.
    destruct (parse_item_spec _ _ _ Hok E) as (s & Hs & Hwf & Hc).
    assert (Hr : Forall token_ok rest) by (rewrite Hs in Hok; apply Forall_app in Hok; tauto).
    destruct (IH _ _ Hr E2) as (p & Hp & Hpw & Hpc).
    exists (s :: p). split; [|split; constructor; auto].
    unfold program_tokens in *. cbn [map concat]. rewrite Hs, Hp. reflexivity.
Qed.

(** And back: a well-formed program whose statements can be encoded parses to these items. *)
Lemma parse_item_complete s it rest : stmt_wf s -> compiles s it ->
  match rest with TNumber _ :: _ => False | _ => True end ->
  parse_item (stmt_tokens s ++ rest) = Some (it, rest).
Proof.
  intros Hwf Hc Hr. destruct s as [name|op|op i|i|n|n|n|n|n m]; cbn [compiles] in Hc.
  - subst. reflexivity.
  - subst. cbn [stmt_tokens app parse_item]. cbn in Hwf. pose proof (proj2 (min_imm_zero op) Hwf) as Hz.
    unfold OP_DUPN, OP_SWAPN, OP_EXCHANGE.
    destruct ((op =? 0xe6) || (op =? 0xe7)) eqn:E1; [lia|]. destruct (op =? 0xe8) eqn:E2; [lia|].
    rewrite Hz. cbn. destruct rest as [|[] rest]; auto; contradiction.
  - subst. cbn [stmt_tokens app parse_item]. cbn in Hwf.
    unfold OP_DUPN, OP_SWAPN, OP_EXCHANGE.
    destruct ((op =? 0xe6) || (op =? 0xe7)) eqn:E1; [lia|]. destruct (op =? 0xe8) eqn:E2; [lia|].
    assert (Hl : min_imm_len op = Z.to_nat (op - 0x5f)) by (unfold min_imm_len; destruct ((0x60 <=? op) && (op <=? 0x7f)) eqn:F; [reflexivity|lia]).
    rewrite Hl. destruct (Nat.ltb_spec 0 (Z.to_nat (op - 0x5f))); [|lia]. destruct i; reflexivity.
  - subst. destruct i; reflexivity.
  - cbn [stmt_tokens app parse_item expect_number_u8].
    destruct Hc as [[Hn ->]|[Hn (raw & E & ->)]].
    + destruct (Z.ltb_spec n 256); [|lia]. destruct (Z.ltb_spec n 1); [lia|].
      destruct (Z.leb_spec n 16); [reflexivity|lia].
    + destruct (Z.ltb_spec n 256); [|lia]. destruct (Z.ltb_spec n 1); [lia|].
      destruct (Z.leb_spec n 16); [lia|]. rewrite E. reflexivity.
  - cbn [stmt_tokens app parse_item expect_number_u8].
    destruct Hc as [[Hn ->]|[Hn (raw & E & ->)]].
    + destruct (Z.ltb_spec n 256); [|lia]. destruct (Z.ltb_spec n 1); [lia|].
      destruct (Z.leb_spec n 16); [reflexivity|lia].
    + destruct (Z.ltb_spec n 256); [|lia]. destruct (Z.ltb_spec n 1); [lia|].
      destruct (Z.leb_spec n 16); [lia|]. rewrite E. reflexivity.
  - destruct Hc as [Hn (raw & E & ->)]. cbn [stmt_tokens app parse_item expect_number_u8].
    cbn [Z.eqb Pos.eqb OP_DUPN OP_SWAPN orb]. destruct (Z.ltb_spec n 256); [|lia]. rewrite E. reflexivity.
  - destruct Hc as [Hn (raw & E & ->)]. cbn [stmt_tokens app parse_item expect_number_u8].
    cbn [Z.eqb Pos.eqb OP_DUPN OP_SWAPN orb]. destruct (Z.ltb_spec n 256); [|lia]. rewrite E. reflexivity.
  - destruct Hc as [Hn [Hm (raw & E & ->)]]. cbn [stmt_tokens app parse_item expect_number_u8].
    cbn [Z.eqb Pos.eqb OP_DUPN OP_SWAPN OP_EXCHANGE orb]. destruct (Z.ltb_spec n 256); [|lia].
    cbn [expect_number_u8]. destruct (Z.ltb_spec m 256); [|lia]. rewrite E. reflexivity.
Qed.

Lemma program_no_number p : match program_tokens p with TNumber _ :: _ => False | _ => True end.
Proof. destruct p as [|s p]; [exact I|]. destruct s; exact I. Qed.

Lemma parse_items_complete p : forall items fuel, Forall stmt_wf p -> Forall2 compiles p items ->
  (length (program_tokens p) <= fuel)%nat -> parse_loop_items fuel (program_tokens p) = Some items.
Proof.
  induction p as [|s p IH]; intros items fuel Hwf Hc Hf.
  - inversion Hc; subst. destruct fuel; reflexivity.
  - inversion Hc as [|? it ? items' Hs Hp]; subst. inversion Hwf; subst.
    change (program_tokens (s :: p)) with (stmt_tokens s ++ program_tokens p) in *.
    assert (Hne : exists t ts, stmt_tokens s = t :: ts) by (destruct s; cbn; eauto).
    destruct Hne as (t & ts & Et). rewrite app_length, Et in Hf. cbn [length] in Hf.
    destruct fuel as [|fuel]; [lia|].
    assert (Hpi : parse_item (stmt_tokens s ++ program_tokens p) = Some (it, program_tokens p))
      by (apply parse_item_complete; auto; apply program_no_number).
    rewrite Et in *. cbn [app] in *. cbn [parse_loop_items]. rewrite Hpi.
    rewrite (IH items' fuel); auto. lia.
Qed.

(** ** Emission *)

Definition imm_ok (i : imm) : Prop := match i with Num v => 0 <= v < 2 ^ 256 | Lab _ => True end.
Definition stmt_imm_ok (s : stmt) : Prop :=
  match s with SPushN _ i | SPush i => imm_ok i | _ => True end.

Lemma imm_ok_stmt p : Forall token_ok (program_tokens p) -> Forall stmt_imm_ok p.
Proof.
  induction p as [|s p IH]; intros H; [constructor|].
  change (program_tokens (s :: p)) with (stmt_tokens s ++ program_tokens p) in H.
  apply Forall_app in H as [Hs Hp]. constructor; [|auto].
  destruct s as [name|op|op i|i|n|n|n|n|n m]; cbn; auto; destruct i; cbn; auto;
    inversion Hs as [|? ? _ H2]; subst; inversion H2; auto.
Qed.

Lemma get_prefix_app l rest : get_prefix (length l) (l ++ rest) = Some l.
Proof.
  unfold get_prefix. rewrite app_length. destruct (Nat.leb_spec (length l) (length l + length rest)); [|lia].
  rewrite firstn_app, Nat.sub_diag, firstn_all. cbn [firstn]. rewrite app_nil_r. reflexivity.
Qed.
Lemma skipn_len_app {A} (l rest : list A) : skipn (length l) (l ++ rest) = rest.
Proof. rewrite skipn_app, Nat.sub_diag, skipn_all. reflexivity. Qed.

Lemma next_plain tbl op rest : min_imm_len op = 0%nat ->
  iter_next tbl (op :: rest) = Some (mkOpcode op None, rest).
Proof. intros H. cbn [iter_next]. rewrite H. destruct (tbl op); reflexivity. Qed.
Lemma next_imm tbl op bs rest : tbl op = true -> min_imm_len op = length bs -> (0 < length bs)%nat ->
  iter_next tbl (op :: bs ++ rest) = Some (mkOpcode op (Some bs), rest).
Proof.
  intros Ht Hl Hp. cbn [iter_next]. rewrite Ht, Hl. destruct (Nat.ltb_spec 0 (length bs)); [|lia].
  rewrite get_prefix_app, skipn_len_app. reflexivity.
Qed.
Lemma min_imm_push_len op : 0x60 <= op <= 0x7f -> min_imm_len op = Z.to_nat (op - 0x5f).
Proof. intros H. unfold min_imm_len. destruct ((0x60 <=? op) && (op <=? 0x7f)) eqn:F; [reflexivity|lia]. Qed.

Definition addr_of (m : labels) (name : nat) : option nat := get_label name m.

Lemma resolve_spec m i v : imm_ok i -> resolve_imm i m = Some v -> 0 <= v /\ imm_value_of (addr_of m) i v.
Proof.
  destruct i as [n|l]; cbn [resolve_imm imm_value_of imm_ok].
  - intros Hn [= <-]. split; [lia|reflexivity].
  - intros _. unfold addr_of. destruct (get_label l m) as [pc|] eqn:E; [|discriminate].
    intros [= <-]. split; [lia|]. eauto.
Qed.

Lemma single_byte_imm n raw bs : 0 <= n < 256 -> encode_single n = Some raw ->
  encode_imm raw (Some 1%nat) = Some bs -> exists b, bs = [b] /\ is_byte b /\ decode_single b = Some n.
Proof.
  intros Hn E H.
  assert (Hr : 0 <= raw < 256 /\ decode_single raw = Some n).
  { unfold encode_single in E. destruct (decode_single ((n - 145) mod 256)) as [k|] eqn:D; [|discriminate].
    destruct (Z.eqb_spec k n) as [-> |]; [|discriminate]. injection E as <-.
    split; [apply Z.mod_pos_bound; lia|auto]. }
  destruct Hr as [Hr D]. destruct (encode_imm_spec raw 1%nat bs ltac:(lia) H) as (L & B & V).
  destruct bs as [|b [|]]; cbn in L; try discriminate.
  cbn [evm_be length] in V. change (256 ^ Z.of_nat 0) with 1 in V. exists b.
  split; [reflexivity|]. apply Forall_inv in B. split; [auto|].
  replace b with raw by lia. auto.
Qed.

Lemma pair_byte_imm n m raw bs : encode_pair n m = Some raw ->
  encode_imm raw (Some 1%nat) = Some bs -> exists b, bs = [b] /\ is_byte b /\ decode_pair b = Some (n, m).
Proof.
  intros E H.
  assert (Hr : 0 <= raw < 256 /\ decode_pair raw = Some (n, m)).
  { assert (T : forall q r, try_k n m q r = Some raw -> 0 <= raw < 256 /\ decode_pair raw = Some (n, m)).
    { intros q r Hk. unfold try_k in Hk. destruct ((q >=? 16) || (r >=? 16)); [discriminate|].
      destruct (decode_pair (Z.lxor ((q * 16 + r) mod 256) 143)) as [[n' m']|] eqn:D; [|discriminate].
      destruct ((n' =? n) && (m' =? m)) eqn:Q; [|discriminate]. injection Hk as <-.
      apply andb_true_iff in Q as [Q1 Q2]. apply Z.eqb_eq in Q1, Q2. subst. split; [|auto].
      pose proof (Z.mod_pos_bound (q * 16 + r) 256 ltac:(lia)) as Hm.
      set (z := (q * 16 + r) mod 256) in *. clearbody z.
      apply (sweep (fun z => (0 <=? Z.lxor z 143) && (Z.lxor z 143 <? 256)) ltac:(vm_compute; reflexivity)) in Hm.
      apply andb_true_iff in Hm as [A B]. apply Z.leb_le in A. apply Z.ltb_lt in B. lia. }
    unfold encode_pair in E. destruct ((n =? 0) || (m =? 0)); [discriminate|].
    destruct (n <? m); [eapply T; eauto|]. destruct (29 <? m); [discriminate|]. eapply T; eauto. }
  destruct Hr as [Hr D]. destruct (encode_imm_spec raw 1%nat bs ltac:(lia) H) as (L & B & V).
  destruct bs as [|b [|]]; cbn in L; try discriminate.
  cbn [evm_be length] in V. change (256 ^ Z.of_nat 0) with 1 in V. exists b.
  split; [reflexivity|]. apply Forall_inv in B. split; [auto|].
  replace b with raw by lia. auto.
Qed.

Definition is_label (s : stmt) : bool := match s with SLabel _ => true | _ => false end.

(** The bytes emitted for a statement decode to the instruction it asks for. *)
Definition reads (tbl : optable) (m : labels) (s : stmt) (bytes : list Z) : Prop :=
  exists o, (forall pc, bytes = item_bytes (pc, o)) /\ denotes (addr_of m) s o /\
            forall rest, iter_next tbl (bytes ++ rest) = Some (o, rest).

Lemma reads_8024 tbl m s op b : (op = 0xe6 \/ op = 0xe7 \/ op = 0xe8) -> tbl op = true ->
  denotes (addr_of m) s (mkOpcode op (Some [b])) -> reads tbl m s [op; b].
Proof.
  intros Hop Ht Hd. exists (mkOpcode op (Some [b])). split; [reflexivity|]. split; [auto|].
  intros rest. apply (next_imm tbl op [b] rest); [auto| |cbn; lia].
  destruct Hop as [-> |[-> | ->]]; reflexivity.
Qed.

Lemma push_reads tbl m s op bs v : pushes_active tbl -> 0x60 <= op <= 0x7f ->
  length bs = Z.to_nat (op - 0x5f) -> Forall is_byte bs -> evm_be bs = v ->
  (is_push (mkOpcode op (Some bs)) v -> denotes (addr_of m) s (mkOpcode op (Some bs))) ->
  reads tbl m s (op :: bs).
Proof.
  intros Ha Hop L B V Hd. exists (mkOpcode op (Some bs)). split; [reflexivity|]. split.
  - apply Hd. right. cbn. split; [auto|]. exists bs. repeat split; auto. lia.
  - intros rest. apply (next_imm tbl op bs rest); [auto| |lia].
    rewrite min_imm_push_len by auto. lia.
Qed.

Lemma pfixed1 m op raw w bytes : emit_item m (IInst op (Some (Num raw)) (PFixed 1)) w = AOk bytes ->
  exists bs, encode_imm raw (Some 1%nat) = Some bs /\ bytes = op :: bs.
Proof.
  unfold emit_item. cbn [resolve_imm]. destruct (encode_imm raw (Some 1%nat)) as [bs|]; [|discriminate].
  intros [= <-]. eauto.
Qed.

(** A width is large enough for the label it is used for. *)
Definition sufficient (m : labels) (it : item) (w : nat) : Prop :=
  match it with
  | IInst _ (Some (Lab l)) PAuto => forall pc, get_label l m = Some pc -> (bytes_len (Z.of_nat pc) <= w <= 32)%nat
  | _ => True
  end.

Lemma emit_reads tbl m s it w bytes : pushes_active tbl -> enabled tbl s ->
  stmt_wf s -> stmt_imm_ok s -> compiles s it -> sufficient m it w ->
  emit_item m it w = AOk bytes -> is_label s = false -> reads tbl m s bytes.
Proof.
  intros Ha Hen Hwf Hi Hc Hw He Hl.
  destruct s as [name|op|op i|i|n|n|n|n|n k]; cbn [compiles stmt_imm_ok stmt_wf enabled] in *.
  - discriminate.
  - subst it. cbn in He. injection He as <-. exists (mkOpcode op None). split; [reflexivity|].
    split; [reflexivity|]. intros rest. apply next_plain. apply min_imm_zero. auto.
  - subst it. cbn [emit_item] in He. destruct (resolve_imm i m) as [v|] eqn:R; [|discriminate].
    destruct (encode_imm v _) as [bs|] eqn:E; [|discriminate]. injection He as <-.
    destruct (resolve_spec _ _ _ Hi R) as [Hv HV]. destruct (encode_imm_spec _ _ _ Hv E) as (L & B & V).
    eapply push_reads; eauto. intros Hp. cbn. split; [reflexivity|]. eauto.
  - subst it. cbn [emit_item] in He. destruct (resolve_imm i m) as [v|] eqn:R; [|discriminate].
    destruct (resolve_spec _ _ _ Hi R) as [Hv HV].
    set (width := match i with Num _ => length (trimmed v) | Lab _ => w end) in *.
    assert (Hwd : (width <= 32)%nat).
    { unfold width. destruct i as [n|l]; [|destruct HV as (pc & Hpc & _); specialize (Hw pc Hpc); lia]. cbn in HV. subst v. unfold trimmed.
      rewrite be_bytes_length. apply bytes_len_lb. cbn in Hi. exact Hi. }
    destruct (Nat.ltb_spec 0 width) as [Hp|Hp].
    + destruct (encode_imm v (Some width)) as [bs|] eqn:E; [|discriminate]. injection He as <-.
      destruct (encode_imm_spec _ _ _ Hv E) as (L & B & V). unfold OP_PUSH0.
      clearbody width. apply (push_reads tbl m (SPush i) (0x5f + Z.of_nat width) bs v); auto; [lia|lia|].
      intros Hq. cbn [denotes]. eauto.
    + injection He as <-. assert (Hw0 : width = 0%nat) by lia. rewrite Hw0.
      exists (mkOpcode 0x5f None). split; [reflexivity|].
      split; [|intros rest; apply next_plain; reflexivity]. cbn [denotes]. exists v. split; [auto|].
      left. repeat split. destruct i as [n|l]; cbn in HV.
      * subst v. unfold width, trimmed in Hw0. rewrite be_bytes_length in Hw0.
        apply bytes_len_zero in Hw0; auto.
      * destruct HV as (pc & Hpc & ->). unfold width in Hw0. apply bytes_len_zero; [lia|].
        specialize (Hw pc Hpc). lia.
  - destruct Hc as [[Hn ->]|[Hn (raw & E & ->)]].
    + cbn in He. injection He as <-. exists (mkOpcode (0x80 + n - 1) None). split; [reflexivity|].
      split; [left; cbn; auto|]. intros rest. apply next_plain. apply min_imm_zero. lia.
    + apply pfixed1 in He as (bs & Eb & ->). destruct (single_byte_imm n raw bs ltac:(lia) E Eb) as (b & -> & Hb & D).
      apply reads_8024; [auto|apply Hen; lia|]. right. cbn. split; [auto|eauto].
  - destruct Hc as [[Hn ->]|[Hn (raw & E & ->)]].
    + cbn in He. injection He as <-. exists (mkOpcode (0x90 + n - 1) None). split; [reflexivity|].
      split; [left; cbn; auto|]. intros rest. apply next_plain. apply min_imm_zero. lia.
    + apply pfixed1 in He as (bs & Eb & ->). destruct (single_byte_imm n raw bs ltac:(lia) E Eb) as (b & -> & Hb & D).
      apply reads_8024; [auto|apply Hen; lia|]. right. cbn. split; [auto|eauto].
  - destruct Hc as [Hn (raw & E & ->)].
    apply pfixed1 in He as (bs & Eb & ->). destruct (single_byte_imm n raw bs ltac:(lia) E Eb) as (b & -> & Hb & D).
    apply reads_8024; [auto|auto|]. cbn. split; [auto|]. right. split; [auto|]. cbn. eauto.
  - destruct Hc as [Hn (raw & E & ->)].
    apply pfixed1 in He as (bs & Eb & ->). destruct (single_byte_imm n raw bs ltac:(lia) E Eb) as (b & -> & Hb & D).
    apply reads_8024; [auto|auto|]. cbn. split; [auto|]. right. split; [auto|]. cbn. eauto.
  - destruct Hc as [Hn [Hk (raw & E & ->)]].
    apply pfixed1 in He as (bs & Eb & ->). destruct (pair_byte_imm n k raw bs E Eb) as (b & -> & Hb & D).
    apply reads_8024; [auto|auto|]. cbn [denotes opc immediate]. split; [auto|]. eauto.
Qed.

(** ** Positions *)

Fixpoint sizes (items : list item) (ws : list nat) : nat :=
  match items, ws with
  | it :: items', w :: ws' => (item_size it w + sizes items' ws')%nat
  | _, _ => 0%nat
  end.

Lemma encode_imm_length v n bs : encode_imm v (Some n) = Some bs -> length bs = n.
Proof.
  unfold encode_imm. destruct (Nat.leb_spec (length (trimmed v)) n); [|discriminate].
  intros [= <-]. rewrite app_length, repeat_length. lia.
Qed.

Lemma emit_size m it w bytes : emit_item m it w = AOk bytes -> length bytes = item_size it w.
Proof.
  destruct it as [name|op i k]; [intros [= <-]; reflexivity|]. cbn [emit_item].
  destruct k as [|size|].
  - intros [= <-]. reflexivity.
  - destruct i as [i|]; [|discriminate]. destruct (resolve_imm i m) as [v|]; [|discriminate].
    destruct (encode_imm v (Some size)) as [bs|] eqn:E; [|discriminate]. intros [= <-].
    apply encode_imm_length in E. cbn. lia.
  - destruct i as [i|]; [|discriminate]. destruct (resolve_imm i m) as [v|] eqn:R; [|discriminate].
    set (width := match i with Num _ => length (trimmed v) | Lab _ => w end).
    assert (Hs : item_size (IInst op (Some i) PAuto) w = S width).
    { unfold width. destruct i as [n|l]; cbn; [|reflexivity]. injection R as <-. reflexivity. }
    rewrite Hs. clearbody width. destruct (Nat.ltb_spec 0 width).
    + destruct (encode_imm v (Some width)) as [bs|] eqn:E; [|discriminate]. intros [= <-].
      apply encode_imm_length in E. cbn. lia.
    + intros [= <-]. cbn. lia.
Qed.

Lemma collect_step tbl bytes o rest pc its fuel :
  iter_next tbl (bytes ++ rest) = Some (o, rest) -> bytes = item_bytes (pc, o) ->
  (forall fuel', (length rest <= fuel')%nat -> collect fuel' tbl (rest, pc + length bytes)%nat = Some its) ->
  (length (bytes ++ rest) <= fuel)%nat ->
  collect fuel tbl (bytes ++ rest, pc) = Some ((pc, o) :: its).
Proof.
  intros Hn Hb IH Hf. assert (Hl : length bytes = (1 + imm_length o)%nat)
    by (rewrite Hb; unfold item_bytes, imm_length; cbn; destruct (immediate o); reflexivity).
  rewrite app_length in Hf. destruct fuel as [|fuel]; [lia|].
  cbn [collect]. unfold iter_next_pc. cbn [fst snd]. rewrite Hn.
  replace (pc + 1 + imm_length o)%nat with (pc + length bytes)%nat by lia.
  rewrite IH by lia. reflexivity.
Qed.

Lemma emit_all_spec tbl m : pushes_active tbl -> forall p items ws code pc,
  Forall (enabled tbl) p -> Forall stmt_wf p -> Forall stmt_imm_ok p -> Forall2 compiles p items ->
  Forall2 (sufficient m) items ws ->
  emit_all (emit_item m) items ws = AOk code ->
  exists its, aligned (addr_of m) p its pc (pc + length code) /\
    (forall fuel, (length code <= fuel)%nat -> collect fuel tbl (code, pc) = Some its) /\
    forall k, (k <= length p)%nat ->
      address its (pc + length code) (count_insts (firstn k p)) = (pc + sizes (firstn k items) (firstn k ws))%nat.
Proof.
  intros Ha p. induction p as [|s p IH]; intros items ws code pc Hen Hwf Hi Hc Hs He.
  - inversion Hc; subst. inversion Hs; subst. cbn in He. injection He as <-. exists [].
    cbn [length]. rewrite Nat.add_0_r. split; [constructor|]. split; [intros [] _; reflexivity|].
    intros k Hk. destruct k; [|cbn in Hk; lia]. cbn. lia.
  - inversion Hc as [|? it ? items' Hcs Hcp]; subst. inversion Hs as [|? w ? ws' Hss Hsp]; subst.
    inversion Hen; subst. inversion Hwf; subst. inversion Hi; subst.
    cbn [emit_all] in He. destruct (emit_item m it w) as [bytes| | |] eqn:Eb; try discriminate.
    destruct (emit_all (emit_item m) items' ws') as [rest| | |] eqn:Er; try discriminate.
    injection He as <-. pose proof (emit_size _ _ _ _ Eb) as Hsz.
    destruct (IH items' ws' rest (pc + length bytes)%nat) as (its & Hal & Hcol & Had); auto.
    rewrite app_length. rewrite <- Nat.add_assoc in Hal, Had.
    destruct (is_label s) eqn:Hl.
    + destruct s; try discriminate. cbn in Hcs. subst it. cbn in Eb. injection Eb as <-.
      cbn [length app] in *. rewrite Nat.add_0_l in *. rewrite Nat.add_0_r in *.
      exists its. split; [constructor; auto|]. split; [auto|].
      intros [|k] Hk.
      * specialize (Had 0%nat ltac:(lia)). cbn in Had |- *. exact Had.
      * specialize (Had k ltac:(cbn in Hk; lia)). cbn [firstn count_insts sizes item_size] in *. exact Had.
    + destruct (emit_reads tbl m s it w bytes) as (o & Hb & Hd & Hn); auto.
      exists ((pc, o) :: its). split; [|split].
      * apply al_inst; [auto|]. rewrite <- (Hb pc). exact Hal.
      * intros fuel Hf. apply (collect_step tbl bytes o rest pc its fuel); auto. rewrite app_length; auto.
      * intros [|k] Hk; [cbn; lia|].
        assert (Hcount : count_insts (firstn (S k) (s :: p)) = S (count_insts (firstn k p)))
          by (destruct s; try reflexivity; discriminate).
        rewrite Hcount. specialize (Had k ltac:(cbn in Hk; lia)).
        unfold address in *. cbn [nth_error firstn sizes]. rewrite Had. lia.
Qed.

(** ** The label map *)

Lemma label_pcs_spec name : forall items ws pc m0, length ws = length items ->
  match get_label name (label_pcs items ws pc m0) with
  | Some q =>
      (exists k, nth_error items k = Some (ILabel name) /\
        (forall j, (k < j)%nat -> nth_error items j <> Some (ILabel name)) /\
        q = (pc + sizes (firstn k items) (firstn k ws))%nat) \/
      (get_label name m0 = Some q /\ forall j, nth_error items j <> Some (ILabel name))
  | None => get_label name m0 = None /\ forall j, nth_error items j <> Some (ILabel name)
  end.
Proof.
  induction items as [|it items IH]; intros ws pc m0 Hl.
  - cbn [label_pcs]. destruct (get_label name m0); [right|]; split; auto; intros [|j]; discriminate.
  - destruct ws as [|w ws]; [discriminate|]. cbn [label_pcs]. injection Hl as Hl.
    set (m1 := match it with ILabel nm => (nm, pc) :: m0 | IInst _ _ _ => m0 end).
    specialize (IH ws (pc + item_size it w)%nat m1 Hl).
    assert (Hm1 : (it = ILabel name /\ get_label name m1 = Some pc) \/
                  (it <> ILabel name /\ get_label name m1 = get_label name m0)).
    { unfold m1. destruct it as [nm|]; cbn [get_label]; [|right; split; [discriminate|auto]].
      destruct (Nat.eqb_spec nm name) as [-> |N]; [left; auto|right; split; [congruence|auto]]. }
    clearbody m1.
    destruct (get_label name (label_pcs items ws (pc + item_size it w) m1)) as [q|] eqn:E.
    + destruct IH as [(k & Hk & Hlast & ->)|[Hg Hno]].
      * left. exists (S k). split; [exact Hk|]. split; [|cbn [firstn sizes]; lia].
        intros [|j] Hj; [lia|]. apply Hlast. lia.
      * destruct Hm1 as [[-> Hp]|[Hne Hp]].
        -- left. exists 0%nat. split; [reflexivity|]. split; [|cbn; congruence || (rewrite Hp in Hg; injection Hg as <-; cbn; lia)].
           intros [|j] Hj; [lia|]. apply Hno.
        -- right. split; [congruence|]. intros [|j]; [cbn; congruence|apply Hno].
    + destruct IH as [Hg Hno]. destruct Hm1 as [[-> Hp]|[Hne Hp]]; [congruence|].
      split; [congruence|]. intros [|j]; [cbn; congruence|apply Hno].
Qed.

Lemma compiles_label s it name : compiles s it -> (s = SLabel name <-> it = ILabel name).
Proof.
  intros H. split.
  - intros ->. exact H.
  - intros ->. destruct s; cbn in H; try discriminate.
    + injection H as ->. reflexivity.
    + destruct H as [[_ H]|[_ (r & _ & H)]]; discriminate.
    + destruct H as [[_ H]|[_ (r & _ & H)]]; discriminate.
    + destruct H as [_ (r & _ & H)]; discriminate.
    + destruct H as [_ (r & _ & H)]; discriminate.
    + destruct H as [_ [_ (r & _ & H)]]; discriminate.
Qed.

Lemma compiles_nth p items name k : Forall2 compiles p items ->
  (nth_error p k = Some (SLabel name) <-> nth_error items k = Some (ILabel name)).
Proof.
  intros H. revert k. induction H as [|s it p items Hc Hp IH]; intros [|k]; cbn; try (split; discriminate); auto.
  pose proof (compiles_label _ _ name Hc) as L. split; intros [= E]; f_equal; apply L; auto.
Qed.

Lemma forall2_len {A B} (R : A -> B -> Prop) l l' : Forall2 R l l' -> length l = length l'.
Proof. induction 1; cbn; auto. Qed.

Lemma addresses_ok p items ws its fin : Forall2 compiles p items -> length ws = length items ->
  (forall k, (k <= length p)%nat ->
      address its fin (count_insts (firstn k p)) = sizes (firstn k items) (firstn k ws)) ->
  addresses p its fin (addr_of (label_pcs items ws 0 [])).
Proof.
  intros Hc Hl Had. split.
  - intros name pc H. unfold addr_of in H. pose proof (label_pcs_spec name items ws 0 [] Hl) as S.
    rewrite H in S. destruct S as [(k & Hk & Hlast & ->)|[S _]]; [|discriminate].
    exists k. split.
    + split; [apply (compiles_nth _ _ _ _ Hc); auto|]. intros j Hj E. apply (Hlast j Hj).
      apply (compiles_nth _ _ _ _ Hc); auto.
    + rewrite Had; [lia|]. rewrite (forall2_len _ _ _ Hc). apply Nat.lt_le_incl. apply nth_error_Some. congruence.
  - intros name H k [Hk _]. unfold addr_of in H. pose proof (label_pcs_spec name items ws 0 [] Hl) as S.
    rewrite H in S. destruct S as [_ S]. apply (S k). apply (compiles_nth _ _ _ _ Hc); auto.
Qed.

(** ** The layout loop *)

Definition enough (m : labels) (it : item) (w : nat) : Prop :=
  match it with
  | IInst _ (Some (Lab l)) PAuto => exists pc, get_label l m = Some pc /\ (min_push_width pc <= w)%nat
  | _ => True
  end.

Lemma grow_length m : forall items ws ws' c, length ws = length items ->
  grow m items ws = Some (ws', c) -> length ws' = length items.
Proof.
  induction items as [|it items IH]; intros ws ws' c Hl H.
  - destruct ws; injection H as <- <-; reflexivity.
  - destruct ws as [|w ws]; [discriminate|]. injection Hl as Hl. cbn [grow] in H.
    destruct it as [nm|op [[n|l]|] [|size|]];
      try (destruct (grow m items ws) as [[ws1 c1]|] eqn:E; [|discriminate]; injection H as <- <-; cbn; f_equal; eapply IH; eauto).
    destruct (get_label l m); [|discriminate].
    destruct (grow m items ws) as [[ws1 c1]|] eqn:E; [|discriminate].
    destruct (w <? min_push_width n)%nat; injection H as <- <-; cbn; f_equal; eapply IH; eauto.
Qed.

Lemma grow_stable m : forall items ws ws', length ws = length items ->
  grow m items ws = Some (ws', false) -> ws' = ws /\ Forall2 (enough m) items ws.
Proof.
  induction items as [|it items IH]; intros ws ws' Hl H.
  - destruct ws; [|discriminate]. injection H as <-. split; [auto|constructor].
  - destruct ws as [|w ws]; [discriminate|]. injection Hl as Hl. cbn [grow] in H.
    destruct it as [nm|op [[n|l]|] [|size|]];
      try (destruct (grow m items ws) as [[ws1 c1]|] eqn:E; [|discriminate]; injection H as <- ->;
           destruct (IH _ _ Hl E) as [-> F]; split; [reflexivity|constructor; [exact I|exact F]]).
    destruct (get_label l m) as [t|] eqn:G; [|discriminate].
    destruct (grow m items ws) as [[ws1 c1]|] eqn:E; [|discriminate].
    destruct (Nat.ltb_spec w (min_push_width t)); [discriminate|]. injection H as <- ->.
    destruct (IH _ _ Hl E) as [-> F]. split; [reflexivity|constructor; [|exact F]]. cbn. eauto.
Qed.

Definition total (ws : list nat) : nat := fold_right Nat.add 0%nat ws.

Lemma grow_more m : forall items ws ws' c, length ws = length items ->
  grow m items ws = Some (ws', c) -> (total ws + (if c then 1 else 0) <= total ws')%nat.
Proof.
  induction items as [|it items IH]; intros ws ws' c Hl H.
  - destruct ws; [|discriminate]. injection H as <- <-. cbn. lia.
  - destruct ws as [|w ws]; [discriminate|]. injection Hl as Hl. cbn [grow] in H.
    destruct it as [nm|op [[n|l]|] [|size|]];
      try (destruct (grow m items ws) as [[ws1 c1]|] eqn:E; [|discriminate]; injection H as <- <-;
           specialize (IH _ _ _ Hl E); cbn [total fold_right] in *; unfold total in *; lia).
    destruct (get_label l m) as [t|] eqn:G; [|discriminate].
    destruct (grow m items ws) as [[ws1 c1]|] eqn:E; [|discriminate].
    specialize (IH _ _ _ Hl E). unfold total in *.
    destruct (Nat.ltb_spec w (min_push_width t)); injection H as <- <-; cbn [fold_right];
      [destruct c1; lia|lia].
Qed.

Lemma grow_bound m b : (forall l t, get_label l m = Some t -> (min_push_width t <= b)%nat) ->
  forall items ws ws' c, Forall (fun w => (w <= b)%nat) ws ->
  grow m items ws = Some (ws', c) -> Forall (fun w => (w <= b)%nat) ws'.
Proof.
  intros Hb. induction items as [|it items IH]; intros ws ws' c Hw H.
  - destruct ws; injection H as <- <-; constructor.
  - destruct ws as [|w ws]; [injection H as <- <-; constructor|]. inversion Hw; subst. cbn [grow] in H.
    destruct it as [nm|op [[n|l]|] [|size|]];
      try (destruct (grow m items ws) as [[ws1 c1]|] eqn:E; [|discriminate]; injection H as <- <-;
           constructor; [auto|eapply IH; eauto]).
    destruct (get_label l m) as [t|] eqn:G; [|discriminate].
    destruct (grow m items ws) as [[ws1 c1]|] eqn:E; [|discriminate].
    destruct (Nat.ltb_spec w (min_push_width t)); injection H as <- <-; constructor; eauto.
Qed.

Definition item_fits (it : item) : Prop := forall w, (item_size it w <= 33 + w)%nat /\
  ((w <= 32)%nat -> (item_size it w <= 33)%nat).

Lemma compiles_fits s it : stmt_wf s -> stmt_imm_ok s -> compiles s it -> item_fits it.
Proof.
  intros Hwf Hi Hc w.
  assert (Hn : forall v, 0 <= v < 2 ^ 256 -> (length (trimmed v) <= 32)%nat).
  { intros v Hv. unfold trimmed. rewrite be_bytes_length. apply bytes_len_lb. exact Hv. }
  destruct s as [name|op|op i|i|n|n|n|n|n k]; cbn [compiles stmt_wf stmt_imm_ok] in *;
    try (subst it; cbn; lia).
  - subst it. destruct i as [n|l]; cbn [item_size]; [|lia]. specialize (Hn n Hi). lia.
  - destruct Hc as [[_ ->]|[_ (r & _ & ->)]]; cbn; lia.
  - destruct Hc as [[_ ->]|[_ (r & _ & ->)]]; cbn; lia.
  - destruct Hc as [_ (r & _ & ->)]; cbn; lia.
  - destruct Hc as [_ (r & _ & ->)]; cbn; lia.
  - destruct Hc as [_ [_ (r & _ & ->)]]; cbn; lia.
Qed.

Lemma sizes_bound : forall items ws, Forall item_fits items -> Forall (fun w => (w <= 8)%nat) ws ->
  (sizes items ws <= 33 * length items)%nat.
Proof.
  induction items as [|it items IH]; intros ws Hf Hw; [cbn; lia|].
  destruct ws as [|w ws]; [cbn; lia|]. inversion Hf as [|? ? H0 H1]; inversion Hw; subst. cbn [sizes length].
  specialize (IH ws H1 ltac:(auto)). destruct (H0 w) as [_ H]. specialize (H ltac:(lia)). lia.
Qed.

Lemma sizes_firstn k : forall items ws, (sizes (firstn k items) (firstn k ws) <= sizes items ws)%nat.
Proof.
  induction k as [|k IH]; intros items ws; [cbn; lia|].
  destruct items as [|it items]; [cbn; lia|]. destruct ws as [|w ws]; [cbn; lia|].
  cbn [firstn sizes]. specialize (IH items ws). lia.
Qed.

Lemma width_le8 t : Z.of_nat t < 2 ^ 64 -> (min_push_width t <= 8)%nat.
Proof. intros H. rewrite min_push_width_len. apply bytes_len_lb. split; [lia|exact H]. Qed.

Lemma labels_small items ws : Forall item_fits items -> Forall (fun w => (w <= 8)%nat) ws ->
  length ws = length items -> 33 * Z.of_nat (length items) < 2 ^ 64 ->
  forall l t, get_label l (label_pcs items ws 0 []) = Some t -> (min_push_width t <= 8)%nat.
Proof.
  intros Hf Hw Hl Hb l t H. apply width_le8.
  pose proof (label_pcs_spec l items ws 0 [] Hl) as S. rewrite H in S.
  destruct S as [(k & _ & _ & ->)|[S _]]; [|discriminate].
  pose proof (sizes_bound items ws Hf Hw). pose proof (sizes_firstn k items ws). lia.
Qed.

(** The loop keeps these facts and ends. *)
Lemma layout_spec items : Forall item_fits items -> 33 * Z.of_nat (length items) < 2 ^ 64 ->
  forall fuel ws, length ws = length items -> Forall (fun w => (w <= 8)%nat) ws ->
  (8 * length items < total ws + fuel)%nat ->
  match layout fuel items ws with
  | AOk (ws', m) => length ws' = length items /\ m = label_pcs items ws' 0 [] /\
      Forall (fun w => (w <= 8)%nat) ws' /\ Forall2 (enough m) items ws'
  | AErr => exists op l, In (IInst op (Some (Lab l)) PAuto) items /\ ~ In (ILabel l) items
  | _ => False
  end.
Proof.
  intros Hf Hb. induction fuel as [|fuel IH]; intros ws Hl Hw Hfuel.
  - exfalso. assert (H : forall l, Forall (fun w => (w <= 8)%nat) l -> (total l <= 8 * length l)%nat).
    { clear. unfold total. induction 1; cbn [fold_right length]; lia. }
    specialize (H ws Hw). lia.
  - cbn [layout]. set (m := label_pcs items ws 0 []).
    destruct (grow m items ws) as [[ws' c]|] eqn:E.
    + destruct c.
      * apply IH.
        -- eapply grow_length; eauto.
        -- eapply grow_bound; [|exact Hw|exact E]. apply labels_small; auto.
        -- apply grow_more in E; [|auto]. lia.
      * destruct (grow_stable _ _ _ _ Hl E) as [-> F]. auto.
    + assert (G : forall its ws0, length ws0 = length its -> grow m its ws0 = None ->
        exists op l, In (IInst op (Some (Lab l)) PAuto) its /\ get_label l m = None).
      { clearbody m. clear. induction its as [|it its IH]; intros ws Hl H; [destruct ws; discriminate|].
        destruct ws as [|w ws]; [discriminate|]. injection Hl as Hl. cbn [grow] in H.
        destruct it as [nm|op [[n|l]|] [|size|]];
          try (destruct (grow m its ws) as [[ws1 c1]|] eqn:E; [discriminate|];
               destruct (IH ws Hl E) as (o & l' & A & B); exists o, l'; split; [right; exact A|exact B]).
        destruct (get_label l m) as [t|] eqn:Gl; [|exists op, l; split; [left; auto|auto]].
        destruct (grow m its ws) as [[ws1 c1]|] eqn:E; [destruct (w <? min_push_width t)%nat; discriminate|].
        destruct (IH ws Hl E) as (o & l' & A & B). exists o, l'. split; [right; exact A|exact B]. }
      destruct (G items ws Hl E) as (op & l & A & B). exists op, l. split; [auto|].
      intros Hin. pose proof (label_pcs_spec l items ws 0 [] Hl) as S. fold m in S. rewrite B in S.
      destruct S as [_ S]. apply In_nth_error in Hin as [k Hk]. exact (S k Hk).
Qed.

(** The path without labels emits what the general one would. *)
Lemma no_labels_same m it w : mentions_label it = false -> emit_no_labels it = emit_item m it w.
Proof.
  destruct it as [nm|op i k]; [discriminate|]. intros H.
  destruct k as [|size|]; destruct i as [[v|l]|]; try discriminate; try reflexivity.
  cbn [emit_no_labels emit_item resolve_imm encode_imm]. rewrite Nat.leb_refl, Nat.sub_diag. cbn [repeat app].
  destruct (Nat.ltb_spec 0 (length (trimmed v))) as [L|L]; [reflexivity|].
  destruct (trimmed v); [reflexivity|cbn in L; lia].
Qed.

Lemma emit_all_ext f g : forall items ws, (forall it w, In it items -> f it w = g it w) ->
  emit_all f items ws = emit_all g items ws.
Proof.
  induction items as [|it items IH]; intros ws H; [reflexivity|].
  destruct ws as [|w ws]; [reflexivity|]. cbn [emit_all]. rewrite (H it w) by (left; auto).
  rewrite (IH ws); [reflexivity|]. intros; apply H; right; auto.
Qed.

Lemma assemble_rounds p items : Forall stmt_wf p -> Forall stmt_imm_ok p -> Forall2 compiles p items ->
  33 * Z.of_nat (length p) < 2 ^ 64 -> forall fuel, (8 * length p < fuel)%nat ->
  (exists ws, length ws = length items /\
     Forall2 (sufficient (label_pcs items ws 0 [])) items ws /\ Forall (fun w => (w <= 8)%nat) ws /\
     layout_and_emit fuel items = emit_all (emit_item (label_pcs items ws 0 [])) items ws) \/
  (layout_and_emit fuel items = AErr /\
   exists op l, In (IInst op (Some (Lab l)) PAuto) items /\ ~ In (ILabel l) items).
Proof.
  intros Hwf Hi Hc Hb fuel Hfuel. pose proof (forall2_len _ _ _ Hc) as Hlen. rewrite Hlen in *.
  assert (Hf : Forall item_fits items).
  { clear -Hwf Hi Hc. induction Hc; inversion Hwf; inversion Hi; subst; constructor; auto.
    eapply compiles_fits; eauto. }
  unfold layout_and_emit. destruct (existsb mentions_label items) eqn:Em.
  - pose proof (layout_spec items Hf Hb fuel (repeat 0%nat (length items)) ltac:(apply repeat_length)) as L.
    assert (H8 : Forall (fun w => (w <= 8)%nat) (repeat 0%nat (length items))).
    { apply Forall_forall. intros x Hx. apply repeat_spec in Hx. lia. }
    specialize (L H8 ltac:(lia)).
    destruct (layout fuel items (repeat 0%nat (length items))) as [[ws m]| | |]; try contradiction.
    + destruct L as (Hl & -> & H8' & He). left. exists ws. split; [auto|]. split; [|auto].
      set (m := label_pcs items ws 0 []) in *. clearbody m. clear -He H8'.
      induction He as [|it w items ws E Hr IH]; constructor.
      * inversion H8'; subst. unfold sufficient, enough in *. destruct it as [nm|op [[n|l]|] [|size|]]; auto.
        destruct E as (pc & Hg & Hm). intros pc' Hg'. rewrite Hg in Hg'. injection Hg' as <-.
        rewrite <- min_push_width_len. lia.
      * inversion H8'; auto.
    + right. split; [reflexivity|]. exact L.
  - left. exists (repeat 0%nat (length items)). split; [apply repeat_length|].
    assert (Hno : forall it, In it items -> mentions_label it = false).
    { intros it Hin. destruct (mentions_label it) eqn:E; [|auto].
      assert (existsb mentions_label items = true) by (apply existsb_exists; eauto). congruence. }
    split; [|split].
    + set (m := label_pcs items (repeat 0%nat (length items)) 0 []). clearbody m. clear -Hno.
      induction items as [|it items IH]; cbn [length repeat]; constructor.
      * specialize (Hno it (or_introl eq_refl)). destruct it as [nm|op [[n|l]|] k]; try discriminate; exact I.
      * apply IH. intros; apply Hno; right; auto.
    + apply Forall_forall. intros x Hx. apply repeat_spec in Hx. lia.
    + apply emit_all_ext. intros it w Hin. apply no_labels_same. auto.
Qed.

Lemma program_length p : (length p <= length (program_tokens p))%nat.
Proof.
  induction p as [|s p IH]; [cbn; lia|].
  change (program_tokens (s :: p)) with (stmt_tokens s ++ program_tokens p). rewrite app_length.
  assert (1 <= length (stmt_tokens s))%nat by (destruct s; cbn; lia). cbn [length]. lia.
Qed.

Lemma assemble_ok tbl toks code fuel : pushes_active tbl -> Forall token_ok toks ->
  33 * Z.of_nat (length toks) < 2 ^ 64 -> (8 * length toks < fuel)%nat ->
  assemble fuel toks = AOk code ->
  exists p, toks = program_tokens p /\ Forall stmt_wf p /\
    (Forall (enabled tbl) p ->
     exists its addr, iterate tbl code = Some its /\ aligned addr p its 0 (length code) /\
       addresses p its (length code) addr).
Proof.
  intros Ha Hok Hb Hfuel H. unfold assemble in H. destruct (parse_items toks) as [items|] eqn:E; [|discriminate].
  apply parse_items_spec in E as (p & Hp & Hwf & Hc); [|auto]. exists p. split; [auto|]. split; [auto|].
  intros Hen. rewrite Hp in Hok. pose proof (imm_ok_stmt _ Hok) as Hi.
  pose proof (program_length p) as Hle. rewrite <- Hp in Hle.
  destruct (assemble_rounds p items Hwf Hi Hc ltac:(lia) fuel ltac:(lia)) as [(ws & Hl & Hs & _ & Eq)|[Eq _]];
    [|congruence].
  rewrite Eq in H. set (m := label_pcs items ws 0 []) in *.
  destruct (emit_all_spec tbl m Ha p items ws code 0 Hen Hwf Hi Hc Hs H) as (its & Hal & Hcol & Had).
  exists its, (addr_of m). split; [apply Hcol; lia|]. split; [exact Hal|].
  apply addresses_ok; auto.
Qed.

(** A program with nothing to refuse is assembled. *)
Lemma compile_exists p s : stmt_wf s -> acceptable p s -> exists it, compiles s it.
Proof.
  intros Hwf Ha. destruct s as [name|op|op i|i|n|n|n|n|n m]; cbn [compiles acceptable stmt_wf] in *; eauto.
  - destruct (Z.leb_spec n 16); [eexists; left; split; [lia|reflexivity]|].
    destruct (single_surjective_lemma n ltac:(unfold depth_ok; lia)) as (x & _ & Hx & _).
    eexists. right. split; [lia|eauto].
  - destruct (Z.leb_spec n 16); [eexists; left; split; [lia|reflexivity]|].
    destruct (single_surjective_lemma n ltac:(unfold depth_ok; lia)) as (x & _ & Hx & _).
    eexists. right. split; [lia|eauto].
  - destruct (single_surjective_lemma n ltac:(unfold depth_ok; lia)) as (x & _ & Hx & _).
    eexists. split; [lia|eauto].
  - destruct (single_surjective_lemma n ltac:(unfold depth_ok; lia)) as (x & _ & Hx & _).
    eexists. split; [lia|eauto].
  - assert (He : exists x, encode_pair n m = Some x).
    { assert (Hs : forall z, 0 <= z < 256 -> (fun z => let n := z / 16 + 1 in let m := z mod 16 + 1 in
          if (n <? m) && (n + m <=? 30) then match encode_pair n m with Some _ => true | None => false end else true) z = true)
        by (apply sweep; vm_compute; reflexivity).
      specialize (Hs ((n - 1) * 16 + (m - 1)) ltac:(lia)). cbv beta zeta in Hs.
      rewrite Z.div_add_l, Z.div_small in Hs by lia.
      rewrite (Z.add_comm ((n - 1) * 16)), Z.mod_add, Z.mod_small in Hs by lia.
      replace (n - 1 + 0 + 1) with n in Hs by lia. replace (m - 1 + 1) with m in Hs by lia.
      destruct (Z.ltb_spec n m); [|lia]. destruct (Z.leb_spec (n + m) 30); [|lia].
      destruct (encode_pair n m); [eauto|discriminate]. }
    destruct He as (x & Hx). eexists. split; [lia|]. split; [lia|eauto].
Qed.

Lemma raw_ok v : 0 <= v < 256 -> exists bs, encode_imm v (Some 1%nat) = Some bs.
Proof. intros H. apply encode_imm_ok. exact H. Qed.

Lemma single_raw n raw : encode_single n = Some raw -> 0 <= raw < 256.
Proof.
  unfold encode_single. destruct (decode_single ((n - 145) mod 256)) as [k|]; [|discriminate].
  destruct (k =? n); [|discriminate]. intros [= <-]. apply Z.mod_pos_bound. lia.
Qed.
Lemma pair_raw n m raw : encode_pair n m = Some raw -> 0 <= raw < 256.
Proof.
  assert (T : forall q r, try_k n m q r = Some raw -> 0 <= raw < 256).
  { intros q r Hk. unfold try_k in Hk. destruct ((q >=? 16) || (r >=? 16)); [discriminate|].
    destruct (decode_pair (Z.lxor ((q * 16 + r) mod 256) 143)) as [[n' m']|] eqn:D; [|discriminate].
    destruct ((n' =? n) && (m' =? m)) eqn:Q; [|discriminate]. injection Hk as <-.
    pose proof (Z.mod_pos_bound (q * 16 + r) 256 ltac:(lia)) as Hm.
    set (z := (q * 16 + r) mod 256) in *. clearbody z.
    apply (sweep (fun z => (0 <=? Z.lxor z 143) && (Z.lxor z 143 <? 256)) ltac:(vm_compute; reflexivity)) in Hm.
    apply andb_true_iff in Hm as [A B]. apply Z.leb_le in A. apply Z.ltb_lt in B. lia. }
  unfold encode_pair. destruct ((n =? 0) || (m =? 0)); [discriminate|].
  destruct (n <? m); [apply T|]. destruct (29 <? m); [discriminate|]. apply T.
Qed.

Lemma emit_exists p m s it w : stmt_wf s -> stmt_imm_ok s -> acceptable p s -> compiles s it ->
  sufficient m it w ->
  (forall l, In (SLabel l) p -> exists pc, get_label l m = Some pc /\ Z.of_nat pc < 2 ^ 64) ->
  exists bytes, emit_item m it w = AOk bytes.
Proof.
  intros Hwf Hi Ha Hc Hs Hl.
  assert (F1 : forall op raw, 0 <= raw < 256 ->
    exists bytes, emit_item m (IInst op (Some (Num raw)) (PFixed 1)) w = AOk bytes).
  { intros op raw Hr. destruct (raw_ok raw Hr) as (bs & E). exists (op :: bs).
    unfold emit_item. cbn [resolve_imm]. rewrite E. reflexivity. }
  destruct s as [name|op|op i|i|n|n|n|n|n k]; cbn [compiles acceptable stmt_imm_ok stmt_wf] in *.
  - subst. eexists. reflexivity.
  - subst. eexists. reflexivity.
  - subst it. cbn [emit_item]. destruct i as [v|l]; cbn [resolve_imm imm_ok] in *.
    + destruct (encode_imm_ok v (Z.to_nat (op - 0x5f))) as (bs & E).
      { rewrite Z2Nat.id by lia. lia. }
      rewrite E. eauto.
    + destruct Ha as [Ho Hin]. destruct (Hl l Hin) as (pc & G & B). rewrite G. cbn [option_map].
      destruct (encode_imm_ok (Z.of_nat pc) (Z.to_nat (op - 0x5f))) as (bs & E).
      { rewrite Z2Nat.id by lia. split; [lia|].
        assert (2 ^ 64 <= 256 ^ (op - 95)).
        { change (2 ^ 64) with (256 ^ 8). apply Z.pow_le_mono_r; lia. }
        eapply Z.lt_le_trans; eauto. }
      rewrite E. eauto.
  - subst it. cbn [emit_item]. destruct i as [v|l]; cbn [resolve_imm imm_ok] in *.
    + destruct (0 <? length (trimmed v))%nat; [|eauto].
      unfold encode_imm. rewrite Nat.leb_refl. eauto.
    + destruct (Hl l Ha) as (pc & G & B). rewrite G. cbn [option_map].
      destruct (0 <? w)%nat; [|eauto]. cbn [sufficient] in Hs. specialize (Hs pc G).
      unfold encode_imm, trimmed. rewrite be_bytes_length.
      destruct (Nat.leb_spec (bytes_len (Z.of_nat pc)) w); [eauto|lia].
  - destruct Hc as [[_ ->]|[_ (r & E & ->)]]; [eexists; reflexivity|]. apply F1. eapply single_raw; eauto.
  - destruct Hc as [[_ ->]|[_ (r & E & ->)]]; [eexists; reflexivity|]. apply F1. eapply single_raw; eauto.
  - destruct Hc as [_ (r & E & ->)]. apply F1. eapply single_raw; eauto.
  - destruct Hc as [_ (r & E & ->)]. apply F1. eapply single_raw; eauto.
  - destruct Hc as [_ [_ (r & E & ->)]]. apply F1. eapply pair_raw; eauto.
Qed.

Lemma assemble_accepts p fuel : Forall token_ok (program_tokens p) -> Forall stmt_wf p ->
  33 * Z.of_nat (length p) < 2 ^ 64 -> (8 * length p < fuel)%nat ->
  Forall (acceptable p) p -> exists code, assemble fuel (program_tokens p) = AOk code.
Proof.
  intros Hok Hwf Hb Hfuel Hacc. pose proof (imm_ok_stmt _ Hok) as Hi.
  assert (Hit : exists items, Forall2 compiles p items).
  { assert (K : forall a, Forall stmt_wf a -> Forall (acceptable p) a -> exists items, Forall2 compiles a items).
    { clear. induction 1 as [|s a Hs Ha IH]; intros F; [exists []; constructor|].
      inversion F; subst. destruct (IH ltac:(auto)) as (items & Hits).
      destruct (compile_exists p s Hs ltac:(auto)) as (it & Hitc). exists (it :: items). constructor; auto. }
    apply K; auto. }
  destruct Hit as (items & Hc). unfold assemble, parse_items.
  rewrite (parse_items_complete p items) by auto.
  destruct (assemble_rounds p items Hwf Hi Hc Hb fuel Hfuel) as [(ws & Hl & Hs & H8 & Eq)|[_ (op & l & Hin & Hno)]].
  - rewrite Eq. clear Eq. set (m := label_pcs items ws 0 []) in *.
    assert (Hlab : forall l, In (SLabel l) p -> exists pc, get_label l m = Some pc /\ Z.of_nat pc < 2 ^ 64).
    { intros l Hin. apply In_nth_error in Hin as [k Hk]. apply (compiles_nth _ _ _ _ Hc) in Hk.
      pose proof (label_pcs_spec l items ws 0 [] Hl) as L. fold m in L.
      destruct (get_label l m) as [pc|]; [|destruct L as [_ L]; exfalso; exact (L k Hk)].
      exists pc. split; [reflexivity|]. destruct L as [(k' & _ & _ & ->)|[L _]]; [|discriminate].
      assert (Hf : Forall item_fits items).
      { clear -Hwf Hi Hc. induction Hc; inversion Hwf; inversion Hi; subst; constructor; auto.
        eapply compiles_fits; eauto. }
      pose proof (sizes_bound items ws Hf H8). pose proof (sizes_firstn k' items ws).
      rewrite (forall2_len _ _ _ Hc) in Hb. lia. }
    assert (K : forall a b, Forall2 compiles a b -> forall ws, Forall2 (sufficient m) b ws ->
      Forall stmt_wf a -> Forall stmt_imm_ok a -> Forall (acceptable p) a ->
      exists code, emit_all (emit_item m) b ws = AOk code).
    { clearbody m. clear -Hlab. induction 1 as [|s it a b Hsc Hpc IH]; intros ws Hs Hwf Hi Hacc.
      - inversion Hs; subst. eexists; reflexivity.
      - inversion Hs as [|? w ? ws' Hsw Hsr]; subst. inversion Hwf; subst. inversion Hi; subst. inversion Hacc; subst.
        destruct (emit_exists p m s it w) as (bytes & E); auto.
        destruct (IH ws' Hsr) as (rest & E2); auto.
        cbn [emit_all]. rewrite E, E2. eauto. }
    apply (K p items); auto.
  - exfalso.
    assert (HF : Forall2 (fun s it => compiles s it /\ acceptable p s) p items).
    { assert (K : forall a b, Forall2 compiles a b -> Forall (acceptable p) a ->
        Forall2 (fun s it => compiles s it /\ acceptable p s) a b).
      { clear. induction 1; intros F; inversion F; subst; constructor; auto. }
      apply K; auto. }
    assert (G : exists s, In s p /\ compiles s (IInst op (Some (Lab l)) PAuto) /\ acceptable p s).
    { assert (K : forall a b, Forall2 (fun s it => compiles s it /\ acceptable p s) a b ->
        In (IInst op (Some (Lab l)) PAuto) b ->
        exists s, In s a /\ compiles s (IInst op (Some (Lab l)) PAuto) /\ acceptable p s).
      { clear. induction 1 as [|s it a b [A B] Hr IH]; intros Hin; [destruct Hin|]. destruct Hin as [-> |Hin].
        - exists s. split; [left; auto|]. auto.
        - destruct (IH Hin) as (s' & P & Q). exists s'. split; [right; auto|auto]. }
      exact (K _ _ HF Hin). }
    destruct G as (s & _ & Hcs & Has). destruct s as [name|o|o i|i|n|n|n|n|n k]; cbn [compiles] in Hcs; try discriminate.
    + injection Hcs as _ <-. cbn in Has. apply In_nth_error in Has as [k Hk].
      apply (compiles_nth _ _ _ _ Hc) in Hk. apply Hno. eapply nth_error_In; eauto.
    + destruct Hcs as [[_ Q]|[_ (r & _ & Q)]]; discriminate.
    + destruct Hcs as [[_ Q]|[_ (r & _ & Q)]]; discriminate.
    + destruct Hcs as [_ (r & _ & Q)]; discriminate.
    + destruct Hcs as [_ (r & _ & Q)]; discriminate.
    + destruct Hcs as [_ [_ (r & _ & Q)]]; discriminate.
Qed.

Lemma assemble_total toks fuel : Forall token_ok toks ->
  33 * Z.of_nat (length toks) < 2 ^ 64 -> (8 * length toks < fuel)%nat ->
  (exists code, assemble fuel toks = AOk code) \/ assemble fuel toks = AErr.
Proof.
  intros Hok Hb Hfuel. unfold assemble. destruct (parse_items toks) as [items|] eqn:E; [|auto].
  apply parse_items_spec in E as (p & Hp & Hwf & Hc); [|auto].
  rewrite Hp in Hok. pose proof (imm_ok_stmt _ Hok) as Hi. pose proof (program_length p) as Hle.
  rewrite <- Hp in Hle.
  destruct (assemble_rounds p items Hwf Hi Hc ltac:(lia) fuel ltac:(lia)) as [(ws & Hl & _ & _ & Eq)|[Eq _]];
    [|auto].
  rewrite Eq. generalize (label_pcs items ws 0 []) as m. intros m. clear -Hc.
  revert ws. induction Hc as [|s it p items Hs Hp IH]; intros ws; [left; eexists; reflexivity|].
  destruct ws as [|w ws]; [left; eexists; reflexivity|]. cbn [emit_all].
  assert (He : (exists b, emit_item m it w = AOk b) \/ emit_item m it w = AErr).
  { assert (Hsome : match it with IInst _ None (PFixed _ | PAuto) => False | _ => True end).
    { destruct s as [name|op|op i|i|n|n|n|n|n k]; cbn [compiles] in Hs; try (subst it; exact I).
      - destruct Hs as [[_ ->]|[_ (r & _ & ->)]]; exact I.
      - destruct Hs as [[_ ->]|[_ (r & _ & ->)]]; exact I.
      - destruct Hs as [_ (r & _ & ->)]; exact I.
      - destruct Hs as [_ (r & _ & ->)]; exact I.
      - destruct Hs as [_ [_ (r & _ & ->)]]; exact I. }
    destruct it as [nm|op [i|] [|size|]]; try contradiction; cbn [emit_item]; try (left; eexists; reflexivity).
    - destruct (resolve_imm i m) as [v|]; [|auto]. destruct (encode_imm v (Some size)); [eauto|auto].
    - destruct (resolve_imm i m) as [v|]; [|auto]. destruct (_ <? _)%nat; [|eauto].
      destruct (encode_imm v _); [eauto|auto]. }
  destruct He as [(b & ->)| ->]; [|auto]. destruct (IH ws) as [(rest & ->)| ->]; eauto.
Qed.

Lemma aligned_nth addr p its pc fin : aligned addr p its pc fin -> forall k s, nth_error p k = Some s ->
  is_label s = false -> exists q o, nth_error its (count_insts (firstn k p)) = Some (q, o) /\ denotes addr s o.
Proof.
  induction 1 as [pc|name p its pc fin H IH|s0 o p its pc fin Hd H IH]; intros [|k] s Hk Hl; try discriminate.
  - injection Hk as <-. discriminate.
  - destruct (IH k s Hk Hl) as (q & o & A & B). exists q, o. auto.
  - injection Hk as ->. exists pc, o. auto.
  - destruct (IH k s Hk Hl) as (q & o' & A & B). exists q, o'. split; [|auto].
    assert (Hc : count_insts (firstn (S k) (s0 :: p)) = S (count_insts (firstn k p)))
      by (destruct s0; try reflexivity; cbn in Hd; contradiction).
    rewrite Hc. exact A.
Qed.

Lemma compiles_tokens_unique : forall p q, program_tokens p = program_tokens q ->
  Forall stmt_wf p -> Forall stmt_wf q -> p = q.
Proof.
  induction p as [|s p IH]; intros [|t q] E Hp Hq; auto.
  - destruct t; discriminate.
  - destruct s; discriminate.
  - change (stmt_tokens s ++ program_tokens p = stmt_tokens t ++ program_tokens q) in E.
    inversion Hp as [|? ? Hs Hp']; subst. inversion Hq as [|? ? Ht Hq']; subst.
    pose proof (program_no_number p) as Np. pose proof (program_no_number q) as Nq.
    assert (Il : forall i j, imm_token i = imm_token j -> i = j) by (intros [] [] [=]; congruence).
    assert (G : s = t /\ program_tokens p = program_tokens q).
    { destruct s as [a|a|a i|i|a|a|a|a|a a'], t as [b|b|b j|j|b|b|b|b|b b']; cbn in E, Hs, Ht; try discriminate;
        injection E; intros; subst; try lia;
        try (split; [f_equal; auto|auto]; fail);
        try (exfalso; match goal with H : program_tokens _ = _ :: _ |- _ => rewrite H in Np; contradiction
                      | H : _ :: _ = program_tokens _ |- _ => rewrite <- H in Nq; contradiction end). 
    }
    destruct G as [-> G]. f_equal. auto.
Qed.

Lemma label_addresses tbl p code fuel :
  pushes_active tbl -> Forall token_ok (program_tokens p) -> Forall (enabled tbl) p ->
  Forall stmt_wf p ->
  33 * Z.of_nat (length (program_tokens p)) < 2 ^ 64 -> (8 * length (program_tokens p) < fuel)%nat ->
  assemble fuel (program_tokens p) = AOk code ->
  exists its, iterate tbl code = Some its /\
    forall k l s, nth_error p k = Some s -> (s = SPush (Lab l) \/ exists op, s = SPushN op (Lab l)) ->
      exists d o pc, defines p d l /\
        nth_error its (count_insts (firstn k p)) = Some (pc, o) /\
        is_push o (Z.of_nat (address its (length code) (count_insts (firstn d p)))).
Proof.
  intros Ha Hok Hen Hwf Hb Hf H.
  destruct (assemble_ok tbl _ code fuel Ha Hok Hb Hf H) as (q & Eq & Hq & Hall).
  apply compiles_tokens_unique in Eq; auto. subst q. destruct (Hall Hen) as (its & addr & Hit & Hal & [Had _]).
  exists its. split; [auto|]. intros k l s Hk Hs.
  destruct (aligned_nth _ _ _ _ _ Hal k s Hk) as (pc & o & Hn & Hd).
  { destruct Hs as [-> |[op ->]]; reflexivity. }
  assert (Hp : exists v, imm_value_of addr (Lab l) v /\ is_push o v).
  { destruct Hs as [-> |[op ->]]; cbn [denotes] in Hd; [auto|destruct Hd; auto]. }
  destruct Hp as (v & (a & Hla & ->) & Hp). destruct (Had l a Hla) as (d & Hdef & ->).
  exists d, o, pc. auto.
Qed.
