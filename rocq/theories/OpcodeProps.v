(** Properties C01-C04: decoding, jump destinations, EIP-8024 operands, constants. *)
From Verif Require Import OpcodeModel OpcodeSpec OpcodeProof.
Open Scope Z_scope.

(** C01. For every code and every opcode table the iterator yields instructions whose bytes,
    concatenated, are the code (up to a truncated last immediate); the pc of each is the number of
    bytes before it; immediates are complete and only enabled opcodes have them. *)
Theorem C01_decode_partition tbl code :
  exists its tail,
    iterate tbl code = Some its /\
    code = flat_map item_bytes its ++ tail /\
    (forall k it, nth_error its k = Some it ->
       fst it = length (flat_map item_bytes (firstn k its))) /\
    (tail <> [] ->
       exists init pc op, its = init ++ [(pc, mkOpcode op None)] /\ tbl op = true /\
         (length tail < immediate_len op)%nat) /\
    (forall it i, In it its -> immediate (snd it) = Some i ->
       tbl (opc (snd it)) = true /\ length i = immediate_len (opc (snd it)) /\ i <> []) /\
    (forall k it, nth_error its k = Some it -> immediate (snd it) = None ->
       (S k < length its)%nat ->
       tbl (opc (snd it)) = false \/ immediate_len (opc (snd it)) = 0%nat).
Proof.
  assert (E : forall op, min_imm_len op = immediate_len op).
  { intros op. unfold min_imm_len, immediate_len, push_data_len. destruct ((0x60 <=? op) && (op <=? 0x7f)) eqn:A; destruct ((0xe6 <=? op) && (op <=? 0xe8)) eqn:B;
      destruct ((op =? 0xe6) || (op =? 0xe7) || (op =? 0xe8)) eqn:C; try reflexivity; lia. }
  destruct (iterate_partition_lemma tbl code) as (its & tail & H1 & H2 & H3 & H4 & H5 & H6). exists its, tail.
  split; [exact H1|]. split; [exact H2|]. split; [exact H3|]. split; [|split].
  - intros N. destruct (H4 N) as (i & pc & op & X & Y & L). exists i, pc, op. rewrite <- E. auto.
  - intros it i Hi X. rewrite <- E. eauto.
  - intros k it Hk X L. rewrite <- E. eauto.
Qed.
Print Assumptions C01_decode_partition.

(** PUSH2 with its data, ADD, and a PUSH4 cut off after one byte. *)
Example C01_ex : iterate (fun _ => true) [0x61; 1; 2; 0x01; 0x63; 9]
  = Some [(0%nat, mkOpcode 0x61 (Some [1; 2])); (3%nat, mkOpcode 0x01 None); (4%nat, mkOpcode 0x63 None)].
Proof. reflexivity. Qed.

(** C02. With PUSH1..PUSH32 enabled and no enabled DUPN/SWAPN/EXCHANGE followed by a PUSH byte, the
    parser accepts exactly the EVM's jump destinations. The unconditional statement is refuted
    below, so this one is partial: missing are codes with such an immediate. *)
Theorem C02_jumpdests_partial tbl stack_io code :
  pushes_active tbl -> no_push_immediate tbl code ->
  exists st, parse tbl stack_io code = Some st /\
    forall pc, is_valid_jump st pc = true <-> evm_valid_jumpdest code pc.
Proof.
  intros Hp Hn. destruct (parse_total tbl stack_io code) as [st Hst].
  exists st. split; [exact Hst|]. intros pc. exact (jumpdests_correct tbl stack_io code st pc Hp Hn Hst).
Qed.
Print Assumptions C02_jumpdests_partial.

(** Every hardfork before AMSTERDAM: the three opcodes are not enabled, no condition on the code. *)
Theorem C02_jumpdests_before_eip8024 tbl stack_io code :
  pushes_active tbl -> (forall b, 0xe6 <= b <= 0xe8 -> tbl b = false) ->
  exists st, parse tbl stack_io code = Some st /\
    forall pc, is_valid_jump st pc = true <-> evm_valid_jumpdest code pc.
Proof.
  intros Hp Hi. apply C02_jumpdests_partial; [exact Hp|].
  intros pc b b' _ _ H8 Ht _. rewrite Hi in Ht by (cbn [In] in H8; lia). discriminate.
Qed.
Print Assumptions C02_jumpdests_before_eip8024.

Example C02_ex_hyp : pushes_active (fun b => negb (is_8024 b)) /\
  (forall b, 0xe6 <= b <= 0xe8 -> negb (is_8024 b) = false).
Proof. split; intros b Hb; unfold is_8024, OP_DUPN, OP_EXCHANGE; lia. Qed.
(** PUSH1 0x5b; JUMPDEST: only pc 2 is a destination. *)
Example C02_ex : option_map p_dests (parse (fun _ => true) (fun _ => (0, 0)) [0x60; 0x5b; 0x5b]) = Some [2%nat].
Proof. reflexivity. Qed.

(** Finding F3. With DUPN enabled, DUPN 0x60 followed by JUMPDEST: the EVM's scan sees PUSH1 0x5b
    and has no destination, revmc accepts pc 2; and in the second code revmc misses pc 4. *)
Theorem C02_jumpdests_refuted :
  (exists code st pc, parse (fun _ => true) (fun _ => (0, 0)) code = Some st /\
     is_valid_jump st pc = true /\ ~ evm_valid_jumpdest code pc) /\
  (exists code st pc, parse (fun _ => true) (fun _ => (0, 0)) code = Some st /\
     is_valid_jump st pc = false /\ evm_valid_jumpdest code pc).
Proof.
  split.
  - exists [0xe6; 0x60; 0x5b]. eexists. exists 2%nat. split; [vm_compute; reflexivity|].
    split; [vm_compute; reflexivity|]. intros [Hs _].
    assert (H1 : evm_scan [0xe6; 0x60; 0x5b] 1) by (apply (scan_next _ 0 0xe6); [constructor|reflexivity]).
    pose proof (scan_linear _ 1 0x60 2 H1 eq_refl Hs) as H. cbn in H. lia.
  - exists [0xe6; 0x61; 0x61; 0x5b; 0x5b]. eexists. exists 4%nat. split; [vm_compute; reflexivity|].
    split; [vm_compute; reflexivity|]. split; [|reflexivity].
    apply (scan_next _ 1 0x61); [|reflexivity]. apply (scan_next _ 0 0xe6); [constructor|reflexivity].
Qed.
Print Assumptions C02_jumpdests_refuted.

(** C03, single operands: the codec is a bijection between the bytes outside 0x5b..0x7f and the
    depths 17..235. *)
Theorem C03_single_operand x n : is_byte x -> is_byte n ->
  (decode_single x = Some n <-> encode_single n = Some x) /\
  (decode_single x = None <-> 0x5b <= x <= 0x7f) /\
  ((exists y, is_byte y /\ decode_single y = Some n) <-> depth_ok n).
Proof.
  intros Hx Hn. split; [exact (single_roundtrip_lemma x n Hx Hn)|].
  split; [exact (proj1 (single_domain_lemma x Hx))|]. split.
  - intros (y & Hy & H). exact (proj2 (single_domain_lemma y Hy) n H).
  - intros H. destruct (single_surjective_lemma n H) as (y & Hy & _ & Hd). exists y. split; assumption.
Qed.
Print Assumptions C03_single_operand.

(** C03, EXCHANGE: decoding is a bijection between the bytes outside 0x52..0x7f and the pairs with
    1 <= n < m, n + m <= 30. *)
Theorem C03_exchange_decode :
  (forall x, is_byte x -> (decode_pair x = None <-> 0x52 <= x <= 0x7f)) /\
  (forall x n m, is_byte x -> decode_pair x = Some (n, m) -> pair_ok n m) /\
  (forall n m, pair_ok n m -> exists x, is_byte x /\ decode_pair x = Some (n, m) /\
     forall y, is_byte y -> decode_pair y = Some (n, m) -> y = x).
Proof.
  split; [exact pair_domain_lemma|]. split; [|exact pair_bijective_lemma].
  intros x n m Hx H. exact (proj1 (decode_pair_range x (n, m) Hx H)).
Qed.
Print Assumptions C03_exchange_decode.

(** The encoder inverts the decoder exactly on pairs with m <= 16. Partial: the property asks for
    every pair (see the refutation). *)
Theorem C03_exchange_encode_partial x n m : is_byte x -> is_byte n -> is_byte m ->
  (encode_pair n m = Some x <-> decode_pair x = Some (n, m) /\ m <= 16).
Proof. exact (pair_roundtrip_lemma x n m). Qed.
Print Assumptions C03_exchange_encode_partial.

(** Finding F10. EXCHANGE 9 21 is the meaning of byte 7 but the encoder (and so the assembler)
    refuses it. *)
Theorem C03_exchange_roundtrip_refuted :
  exists x n m, is_byte x /\ pair_ok n m /\ decode_pair x = Some (n, m) /\ encode_pair n m = None.
Proof. exists 7, 9, 21. unfold is_byte, pair_ok. repeat split; try lia; vm_compute; reflexivity. Qed.
Print Assumptions C03_exchange_roundtrip_refuted.

Example C03_ex : decode_single 0 = Some 145 /\ decode_single 128 = Some 17 /\ decode_single 0x5b = None
  /\ decode_pair 0 = Some (9, 16) /\ encode_pair 9 16 = Some 0.
Proof. repeat split. Qed.

(** C04, table: after storing any values in any order each handle still yields its value. *)
Theorem C04_handles_recover vs i' hs :
  Forall (fun v => 0 <= v < 2 ^ 256) vs -> Z.of_nat (length vs) <= 2 ^ 31 ->
  store_all vs [] = (i', hs) ->
  (forall k v, nth_error vs k = Some v -> exists h, nth_error hs k = Some h /\ imm_get h i' = Some v) /\
  (forall j k h v w, nth_error hs j = Some h -> nth_error hs k = Some h ->
     nth_error vs j = Some v -> nth_error vs k = Some w -> v = w).
Proof.
  intros Hv Hl H.
  assert (Hv' : Forall (fun v => 0 <= v) vs) by (eapply Forall_impl; [|exact Hv]; intros a Ha; apply Ha).
  destruct (store_all_spec vs [] i' hs Hv' Hl (NoDup_nil _) H) as (_ & _ & _ & Hall).
  split; [exact Hall|]. intros j k h v w Hj Hk Hvj Hwk.
  destruct (Hall j v Hvj) as (h1 & Hh1 & G1). destruct (Hall k w Hwk) as (h2 & Hh2 & G2). congruence.
Qed.
Print Assumptions C04_handles_recover.

(** C04, bytecode: the constant recorded for every PUSH (and 8024 operand) of every code is the
    big-endian value of its data bytes, zero-extended past the end of the code. *)
Theorem C04_push_constants tbl stack_io code :
  Forall is_byte code -> Z.of_nat (length code) < 2 ^ 31 ->
  exists st, parse tbl stack_io code = Some st /\
    forall ins, In ins (p_insts st) ->
      (0x5f <= i_op ins <= 0x7f ->
         imm_get (i_data ins) (p_int st)
         = Some (evm_push_value code (i_pc ins) (Z.to_nat (i_op ins - 0x5f)))) /\
      (0xe6 <= i_op ins <= 0xe8 ->
         imm_get (i_data ins) (p_int st) = Some (evm_push_value code (i_pc ins) 1)).
Proof.
  intros Hb Hl. destruct (parse_total tbl stack_io code) as [st Hst].
  exists st. split; [exact Hst|]. intros ins Hin.
  pose proof (push_constants_lemma tbl stack_io code st ins Hb Hl Hst Hin) as H.
  unfold has_imm_data, OP_PUSH0, OP_PUSH32, OP_DUPN, OP_EXCHANGE, min_imm_len in H.
  split; intros Hop.
  - rewrite H by lia. destruct ((0x60 <=? i_op ins) && (i_op ins <=? 0x7f)) eqn:E; [reflexivity|].
    destruct ((0xe6 <=? i_op ins) && (i_op ins <=? 0xe8)) eqn:E2; [lia|].
    replace (i_op ins - 0x5f) with 0 by lia. reflexivity.
  - rewrite H by lia. destruct ((0x60 <=? i_op ins) && (i_op ins <=? 0x7f)) eqn:E; [lia|].
    destruct ((0xe6 <=? i_op ins) && (i_op ins <=? 0xe8)) eqn:E2; [reflexivity|lia].
Qed.
Print Assumptions C04_push_constants.

(** PUSH4 0xffffffff (too large to inline), PUSH1 5, PUSH3 with one data byte left. *)
Example C04_ex :
  option_map (fun st => map (fun x => imm_get (i_data x) (p_int st)) (p_insts st))
    (parse (fun _ => true) (fun _ => (0, 1)) [0x63; 255; 255; 255; 255; 0x60; 5; 0x62; 1])
  = Some [Some 0xffffffff; Some 5; Some 0x10000].
Proof. vm_compute. reflexivity. Qed.
