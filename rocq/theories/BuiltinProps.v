(** Properties C45, C46 and C47: data copies, block hashes, gas given to sub-frames.

    [does r x]: the builtin ends in the state the EVM specification gives ([meaning]: gas, active words,
    contents of the memory), or fails without panicking where the specification fails. [st_ok]: the gas left
    plus the gas already paid for memory is below 2^55 and the paid price is that of the current memory. *)
From Coq Require Import Lia.
From Verif Require Import BuiltinModel BuiltinSpec BuiltinProof.
From Verif Require WordSpec.
Open Scope Z_scope.

(** C45, CALLDATACOPY and CODECOPY, for all 256-bit offsets and lengths and every data. *)
Theorem C45_copy copy_cost s memory_offset data_offset len data :
  st_ok s -> (forall n, 0 <= n -> 0 <= copy_cost n) -> copy_cost 0 = 0 ->
  is_word memory_offset -> is_word data_offset -> is_word len -> Z.of_nat (length data) < 2 ^ 64 ->
  does (copy_operation copy_cost s memory_offset data_offset len data)
    (evm_copy (copy_cost len) (meaning s) memory_offset data_offset len data).
Proof. exact (copy_operation_does copy_cost s memory_offset data_offset len data). Qed.
Print Assumptions C45_copy.

(** C45, EXTCODECOPY: the same with the price of a cold account added (which is all a zero length pays). *)
Theorem C45_extcodecopy cost cold_cost s account memory_offset code_offset len :
  st_ok s -> (forall n, 0 <= n -> 0 <= cost n) -> 0 <= cold_cost ->
  is_word memory_offset -> is_word code_offset -> is_word len -> Z.of_nat (length (h_code account)) < 2 ^ 64 ->
  does (extcodecopy cost cold_cost s account memory_offset code_offset len)
    (if h_fails account then None
     else evm_copy (cost len + (if h_cold account then cold_cost else 0)) (meaning s) memory_offset code_offset len (h_code account)).
Proof. exact (extcodecopy_does cost cold_cost s account memory_offset code_offset len). Qed.
Print Assumptions C45_extcodecopy.

(** C45, RETURNDATACOPY fails exactly when it reads beyond the return data or cannot be paid; reading
    beyond the end is reported as such, whatever the gas, unless the length does not fit 64 bits. *)
Theorem C45_returndatacopy copy_cost s memory_offset offset len ret :
  st_ok s -> (forall n, 0 <= n -> 0 <= copy_cost n) -> copy_cost 0 = 0 ->
  is_word memory_offset -> is_word offset -> is_word len -> Z.of_nat (length ret) < 2 ^ 63 ->
  does (returndatacopy copy_cost s memory_offset offset len ret)
    (evm_returndatacopy (copy_cost len) (meaning s) memory_offset offset len ret) /\
  (Z.of_nat (length ret) < offset + len ->
   returndatacopy copy_cost s memory_offset offset len ret = BErr (if len <? 2 ^ 64 then EOutOfOffset else EInvalidOperand)).
Proof.
  intros Hs Hc H0 Hm Ho Hl Hr. split; [apply returndatacopy_does; assumption|].
  intros Hb. unfold returndatacopy, to_usize. change (2 ^ 64) with U64. destruct (Z.ltb_spec len U64); cbn [bbind]; [|reflexivity].
  replace (_ <? sat_usize (sat_usize offset + len)) with true; [reflexivity|].
  destruct consts as (EU & E63 & _). unfold is_word, sat_usize in *. lia.
Qed.
Print Assumptions C45_returndatacopy.

(** C45, MCOPY: the destination gets the old contents of the source, also when they overlap; both ranges
    become active memory. *)
Theorem C45_mcopy cost s dst src len :
  st_ok s -> (forall n, 0 <= n -> 0 <= cost n) -> is_word dst -> is_word src -> is_word len ->
  does (mcopy cost s dst src len) (evm_mcopy (cost len) (meaning s) dst src len).
Proof. exact (mcopy_does cost s dst src len). Qed.
Print Assumptions C45_mcopy.

(** C45, CALLDATALOAD: 32 bytes of calldata from any 256-bit offset, zeros beyond its end. *)
Theorem C45_calldataload offset input :
  is_word offset -> Z.of_nat (length input) < 2 ^ 64 ->
  calldataload offset input = map (fun k => data_at input (offset + Z.of_nat k)) (seq 0 32).
Proof. intros Ho. apply calldataload_spec. unfold is_word in *. lia. Qed.
Print Assumptions C45_calldataload.

(** C45, the bytes KECCAK256 hashes, LOG0..4 record and RETURN/REVERT give back are those of the memory
    range, which reads zero where nothing was written. *)
Theorem C45_keccak256 hash cost s offset len :
  st_ok s -> (forall n, 0 <= n -> 0 <= cost n) -> cost 0 = 0 -> is_word offset -> is_word len ->
  yields (keccak256 hash cost s offset len)
    (match evm_read (cost len) (meaning s) offset len with None => None | Some (b, e) => Some (hash b, e) end).
Proof. exact (keccak_does hash cost s offset len). Qed.
Print Assumptions C45_keccak256.

Theorem C45_log cost is_static s offset len topics :
  st_ok s -> (forall k n, 0 <= n -> 0 <= cost k n) -> is_word offset -> is_word len ->
  yields (log_n cost is_static s offset len topics)
    (if is_static then None
     else match evm_read (cost (Z.of_nat (length topics)) len) (meaning s) offset len with None => None | Some (b, e) => Some (topics, b, e) end).
Proof.
  intros Hs Hc Ho Hl. destruct is_static; [|apply log_does; assumption]. eexists. split; [reflexivity|discriminate].
Qed.
Print Assumptions C45_log.

Theorem C45_return s offset len :
  st_ok s -> is_word offset -> is_word len -> yields (do_return s offset len) (evm_read 0 (meaning s) offset len).
Proof. exact (return_does s offset len). Qed.
Print Assumptions C45_return.

(** A frame with one word of memory: bytes 1, 2, ..., 32. Copies reaching beyond data and memory. *)
Definition demo_cost (n : Z) : Z := 3 * ((n + 31) / 32).
Definition demo_st (gas : Z) : bst := mkB (mkMem gas 1 3) (fun i => i + 1).
Definition show (r : bres bst) : option (Z * Z * list Z) :=
  match r with BOk s => Some (mm_gas (b_mem s), mm_words (b_mem s), map (contents s) [0; 1; 29; 30; 31; 32; 33; 34; 35; 63; 64]) | BErr _ => None end.
Example C45_ex :
  st_ok (demo_st 100) /\
  show (copy_operation demo_cost (demo_st 100) 30 1 5 [7; 8; 9]) = Some (94, 2, [1; 2; 30; 8; 9; 0; 0; 0; 0; 0; 0]) /\
  show (copy_operation demo_cost (demo_st 5) 30 1 5 [7; 8; 9]) = None /\
  show (copy_operation demo_cost (demo_st 100) 0 (2 ^ 200) 2 [7; 8; 9]) = Some (97, 1, [0; 0; 30; 31; 32; 0; 0; 0; 0; 0; 0]) /\
  show (copy_operation demo_cost (demo_st 0) (2 ^ 200) (2 ^ 200) 0 [7; 8; 9]) = show (BOk (demo_st 0)) /\
  show (returndatacopy demo_cost (demo_st 100) 31 1 2 [7; 8; 9]) = Some (94, 2, [1; 2; 30; 31; 8; 9; 0; 0; 0; 0; 0]) /\
  returndatacopy demo_cost (demo_st 100) 31 2 2 [7; 8; 9] = BErr EOutOfOffset /\
  show (mcopy demo_cost (demo_st 100) 1 0 31) = Some (97, 1, [1; 1; 29; 30; 31; 0; 0; 0; 0; 0; 0]) /\
  show (extcodecopy demo_cost 50 (demo_st 100) (mkAcc true [7; 8; 9] false) 30 1 5) = Some (44, 2, [1; 2; 30; 8; 9; 0; 0; 0; 0; 0; 0]) /\
  extcodecopy demo_cost 50 (demo_st 49) (mkAcc true [7; 8; 9] false) 0 0 0 = BErr EOutOfGas /\
  calldataload 2 [7; 8; 9] = 9 :: repeat 0 31 /\
  (match do_return (demo_st 100) 30 4 with BOk (b, s) => Some (b, mm_gas (b_mem s)) | BErr _ => None end) = Some ([31; 32; 0; 0], 97).
Proof. split; [repeat split; vm_compute; congruence|]. repeat split; vm_compute; reflexivity. Qed.

(** C46, block numbers up to 2^64: the host is asked for the requested block and only for the last 256
    blocks; everything else is zero. *)
Theorem C46_blockhash block_hash number requested :
  is_word number -> is_word requested -> number <= 2 ^ 64 ->
  blockhash block_hash number requested = match evm_blockhash block_hash number requested with Some h => BOk h | None => BErr EHost end.
Proof. intros _ Hr Hn. apply blockhash_spec; [unfold is_word in *; lia|assumption]. Qed.
Print Assumptions C46_blockhash.

Example C46_ex : let h n := Some (n + 1000) in
  blockhash h 300 299 = BOk 1299 /\ blockhash h 300 44 = BOk 1044 /\ blockhash h 300 43 = BOk 0 /\
  blockhash h 300 300 = BOk 0 /\ blockhash h 300 301 = BOk 0 /\ blockhash h 300 (2 ^ 255) = BOk 0.
Proof. repeat split; vm_compute; reflexivity. Qed.

(** For larger block numbers it is false: the block number handed to the host saturates, so the answer is
    that of block 2^64 - 1, 65 blocks outside the window (finding F17). *)
Theorem C46_large_numbers_refuted : exists block_hash number requested,
  is_word number /\ is_word requested /\
  evm_blockhash block_hash number requested = Some 1 /\ blockhash block_hash number requested = BOk 0 /\
  block_hash (2 ^ 64 - 1) = Some 0.
Proof.
  exists (fun n => Some (if n =? 2 ^ 64 - 1 then 0 else 1)), (2 ^ 64 + 320), (2 ^ 64 + 300).
  repeat split; vm_compute; congruence.
Qed.
Print Assumptions C46_large_numbers_refuted.

(** C47, CALL, CALLCODE, DELEGATECALL and STATICCALL: for every stack, gas and host answer the caller pays
    the memory, the value transfer and the price of reaching the callee, then exactly the gas it gives away:
    what was asked for, but (from Tangerine Whistle on) at most all but 1/64 of the rest, and never more
    than it has; the callee gets that and, when value moves, the stipend on top. *)
Theorem C47_call gp tangerine load fr kind s reservoir limit to value in_off in_len out_off out_len :
  st_ok s -> 0 <= reservoir -> 0 <= gp_transfer gp -> 0 <= gp_stipend gp < 2 ^ 32 -> 0 < gp_reduction gp ->
  (forall g price state_price, load g = Some (price, state_price) -> 0 <= price /\ 0 <= state_price) ->
  is_word limit -> is_word value -> is_word in_off -> is_word in_len -> is_word out_off -> is_word out_len ->
  let r := builtin_call gp tangerine load fr kind s reservoir limit to value in_off in_len out_off out_len in
  if kind_eqb kind KCall && fr_static fr && moves kind value then r = BErr EStatic
  else match evm_call tangerine (gp_reduction gp) (gp_transfer gp) load (meaning s) reservoir (moves kind value) limit
               [(in_off, in_len); (out_off, out_len)] with
  | None => exists e, r = BErr e /\ e <> EPanic
  | Some (e', given, reservoir') => exists ci s', r = BOk (ci, s') /\ st_ok s' /\ same (meaning s') e' /\
      ci_gas ci = given + (if moves kind value then gp_stipend gp else 0) /\ ci_reservoir ci = reservoir'
  end.
Proof.
  intros H1 H2 H3 H4 H5 H6 H7 H8 H9 H10 H11 H12.
  pose proof (call_does gp tangerine load fr kind s reservoir limit to value in_off in_len out_off out_len H1 H2 H3 H4 H5 H6 H7 H8 H9 H10 H11 H12) as H.
  cbn zeta in *. destruct (_ && _ && _); [assumption|]. destruct (evm_call _ _ _ _ _ _ _ _ _) as [[[e' g] r]|]; [|assumption].
  destruct H as (ci & s' & A & B & C & D & E & _). exists ci, s'. tauto.
Qed.
Print Assumptions C47_call.

(** C47, whom the callee runs as: code, address, sender, value, static flag, input and return ranges. *)
Theorem C47_context gp tangerine load fr kind s reservoir limit to value in_off in_len out_off out_len ci s' :
  st_ok s -> 0 <= reservoir -> 0 <= gp_transfer gp -> 0 <= gp_stipend gp < 2 ^ 32 -> 0 < gp_reduction gp ->
  (forall g price state_price, load g = Some (price, state_price) -> 0 <= price /\ 0 <= state_price) ->
  is_word limit -> is_word value -> is_word in_off -> is_word in_len -> is_word out_off -> is_word out_len ->
  builtin_call gp tangerine load fr kind s reservoir limit to value in_off in_len out_off out_len = BOk (ci, s') ->
  ci_input ci = (if in_len =? 0 then None else Some (in_off, in_len)) /\
  ci_output ci = (if out_len =? 0 then None else Some (out_off, out_len)) /\
  ci_code ci = to /\
  (ci_target ci, ci_caller ci, ci_value ci, ci_apparent ci, ci_static ci) =
    match kind with
    | KCall => (to, fr_target fr, value, false, fr_static fr)
    | KCallCode => (fr_target fr, fr_target fr, value, false, fr_static fr)
    | KDelegateCall => (fr_target fr, fr_caller fr, fr_value fr, true, fr_static fr)
    | KStaticCall => (to, fr_target fr, 0, false, true)
    end.
Proof.
  intros H1 H2 H3 H4 H5 H6 H7 H8 H9 H10 H11 H12 HR.
  pose proof (call_does gp tangerine load fr kind s reservoir limit to value in_off in_len out_off out_len H1 H2 H3 H4 H5 H6 H7 H8 H9 H10 H11 H12) as H.
  cbn zeta in *. rewrite HR in H. destruct (_ && _ && _); [discriminate|]. destruct (evm_call _ _ _ _ _ _ _ _ _) as [[[e' g] r]|].
  2:{ destruct H as (e & H & _). discriminate. }
  destruct H as (ci' & s1 & A & _ & _ & _ & _ & I1 & I2 & I3 & I4 & I5 & I6 & I7 & I8). injection A as <- <-.
  rewrite I1, I2, I3, I4, I5, I6, I7, I8. repeat (split; [reflexivity|]). destruct kind; cbn; rewrite ?orb_false_r, ?orb_true_r; reflexivity.
Qed.
Print Assumptions C47_context.

(** What the specification's [forward] means. *)
Theorem C47_forward tangerine r limit :
  0 <= r -> 0 <= limit ->
  match forward tangerine 64 r limit with
  | Some (kept, given) => kept + given = r /\ 0 <= given <= limit /\ 0 <= kept /\ (tangerine = true -> given <= r - r / 64) /\
      (limit <= r - r / 64 -> given = limit)
  | None => tangerine = false /\ r < limit
  end.
Proof.
  intros Hr Hl. pose proof (Z.div_pos r 64 Hr ltac:(lia)). pose proof (Z.div_le_upper_bound r 64 r ltac:(lia) ltac:(lia)).
  unfold forward. destruct tangerine.
  - destruct (Z.ltb_spec r (Z.min limit (r - r / 64))); lia.
  - destruct (Z.ltb_spec r limit); [tauto|]. repeat split; intros; try discriminate; lia.
Qed.
Print Assumptions C47_forward.

(** C47, CREATE and CREATE2: the constructor is offered everything but 1/64, runs the bytes of the memory
    range and pays for them; the size limit and the static check fail. *)
Theorem C47_create gp tangerine shanghai max_init state_price fr s reservoir value off len salt :
  st_ok s -> 0 <= reservoir -> 0 <= state_price -> (forall n, 0 <= n -> 0 <= gp_initcode gp n) -> gp_initcode gp 0 = 0 ->
  0 <= gp_create gp -> (forall n, 0 <= n -> 0 <= gp_create2 gp n) -> 0 < gp_reduction gp -> 0 <= max_init ->
  is_word value -> is_word off -> is_word len ->
  let r := builtin_create gp tangerine shanghai max_init state_price fr s reservoir value off len salt in
  let price := (if shanghai then gp_initcode gp len else 0) + (match salt with Some _ => gp_create2 gp len | None => gp_create gp end) in
  if fr_static fr || (shanghai && (max_init <? len)) then exists e, r = BErr e /\ e <> EPanic
  else match evm_create tangerine (gp_reduction gp) price state_price (meaning s) reservoir off len with
  | None => exists e, r = BErr e /\ e <> EPanic
  | Some (e', given, reservoir', code) =>
      exists s', r = BOk (mkCR (fr_target fr) salt value code given reservoir', s') /\ st_ok s' /\ same (meaning s') e'
  end.
Proof. exact (create_does gp tangerine shanghai max_init state_price fr s reservoir value off len salt). Qed.
Print Assumptions C47_create.

Definition demo_gp : gas_params := mkGP 9000 2300 64 (fun n => 2 * ((n + 31) / 32)) 32000 (fun n => 32000 + 6 * ((n + 31) / 32)).
Definition demo_call (kind : call_kind) (gas limit value : Z) : option (Z * Z) :=
  match builtin_call demo_gp true (fun _ => Some (2600, 0)) (mkFr false 1 2 77) kind (demo_st gas) 0 limit 5 value 0 32 32 32 with
  | BOk (ci, s) => Some (ci_gas ci, mm_gas (b_mem s)) | BErr _ => None end.
Example C47_ex :
  demo_call KCall 100000 (2 ^ 255) 1 = Some (88397 - 88397 / 64 + 2300, 88397 / 64) /\
  demo_call KCall 100000 50000 1 = Some (52300, 88397 - 50000) /\
  demo_call KCall 100000 50000 0 = Some (50000, 97397 - 50000) /\
  demo_call KStaticCall 100000 (2 ^ 64) 1 = Some (97397 - 97397 / 64, 97397 / 64) /\
  demo_call KCall 11602 50000 1 = None /\
  (match builtin_create demo_gp true true 49152 0 (mkFr false 1 2 77) (demo_st 100000) 0 9 30 4 (Some 6) with
   | BOk (cr, s) => Some (cr_code cr, cr_gas cr, mm_gas (b_mem s)) | BErr _ => None end) = Some ([31; 32; 0; 0], 67989 - 67989 / 64, 67989 / 64).
Proof. repeat split; vm_compute; reflexivity. Qed.
