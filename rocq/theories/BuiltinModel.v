(** Model of the builtins that copy data, read blocks hashes and start sub-frames.

    Sources: crates/revmc-builtins/src/{lib,utils,macros}.rs. Stack words are their values (the
    conversions are WordModel's); usize is 64 bits. Memory is a size in words ([GasMemModel.mem]) and a
    byte at each address; slices outside it are panics. *)
From Verif Require Export GasMemModel WordModel.
Open Scope Z_scope.

(** Errors, [BuiltinError]; [EPanic] stands for a Rust panic, [EHost] for an error of the host. *)
Inductive berr := EOutOfGas | EMemoryOOG | EInvalidOperand | EOutOfOffset | EStatic | EInitCodeSize | EHost | EPanic.
Inductive bres (A : Type) := BOk (a : A) | BErr (e : berr).
Arguments BOk {A}. Arguments BErr {A}.
Definition bbind {A B} (x : bres A) (f : A -> bres B) : bres B := match x with BOk a => f a | BErr e => BErr e end.
Notation "'do' x <- a ; b" := (bbind a (fun x => b)) (at level 200, x pattern, a at level 100, b at level 200).

Record bst := mkB { b_mem : mem; b_data : Z -> Z }.
Definition b_size (s : bst) : Z := 32 * mm_words (b_mem s).
Definition set_mem (s : bst) (m : mem) : bst := mkB m (b_data s).

(** [gas!], macros.rs:2-9. *)
Definition charge_b (s : bst) (c : Z) : bres bst :=
  let m := b_mem s in
  if mm_gas m <? c then BErr EOutOfGas else BOk (set_mem s (mkMem (mm_gas m - c) (mm_words m) (mm_paid m))).
(** [try_into_usize!], macros.rs:50-62, and [as_usize_saturated!] on values (see WordProps for the words). *)
Definition to_usize (v : Z) : bres Z := if v <? U64 then BOk v else BErr EInvalidOperand.
Definition sat_usize (v : Z) : Z := Z.min v (U64 - 1).
(** [ensure_memory], utils.rs:85-95: new memory reads zero. *)
Definition expand (s : bst) (offset len : Z) : bres bst :=
  match ensure_memory (b_mem s) offset len with
  | None => BErr EMemoryOOG
  | Some m => BOk (mkB m (fun i => if i <? b_size s then b_data s i else 0))
  end.

(** revm's [SharedMemory] (external): writing and reading slices, panicking outside the memory. *)
Definition write (s : bst) (offset : Z) (bytes : list Z) : bres bst :=
  if b_size s <? offset + Z.of_nat (length bytes) then BErr EPanic
  else BOk (mkB (b_mem s) (fun i => if (offset <=? i) && (i <? offset + Z.of_nat (length bytes)) then nth (Z.to_nat (i - offset)) bytes 0 else b_data s i)).
Definition slice (s : bst) (offset len : Z) : bres (list Z) :=
  if b_size s <? offset + len then BErr EPanic
  else BOk (map (fun k => b_data s (offset + Z.of_nat k)) (seq 0 (Z.to_nat len))).
(** [set_data]: the part of [data] from [data_offset] that exists, zeros after it. *)
Definition set_data (s : bst) (offset data_offset len : Z) (data : list Z) : bres bst :=
  if Z.of_nat (length data) <=? data_offset then write s offset (repeat 0 (Z.to_nat len))
  else
    let data_end := Z.min (data_offset + len) (Z.of_nat (length data)) in
    do s <- write s offset (firstn (Z.to_nat (data_end - data_offset)) (skipn (Z.to_nat data_offset) data));
    write s (offset + (data_end - data_offset)) (repeat 0 (Z.to_nat (len - (data_end - data_offset)))).

(** ** Copies. *)

(** [copy_operation], utils.rs:97-112 (CODECOPY, lib.rs:293-299), and CALLDATACOPY, lib.rs:268-290, which is
    the same on calldata held in a buffer or in the caller's memory. [copy_cost] is the gas schedule's. *)
Definition copy_operation (copy_cost : Z -> Z) (s : bst) (memory_offset data_offset len : Z) (data : list Z) : bres bst :=
  do len <- to_usize len;
  if len =? 0 then BOk s
  else
    do s <- charge_b s (copy_cost len);
    do memory_offset <- to_usize memory_offset;
    do s <- expand s memory_offset len;
    set_data s memory_offset (sat_usize data_offset) len data.

(** What the host knows of an account; [h_fails] is a database error. *)
Record account := mkAcc { h_cold : bool; h_code : list Z; h_fails : bool }.
(** [load_account], utils.rs:56-68; the host skips the load of a cold account when told to. *)
Definition load_account (cold_cost : Z) (s : bst) (a : account) : bres bst :=
  let skip := mm_gas (b_mem s) <? cold_cost in
  if h_fails a then BErr EHost
  else if h_cold a && skip then BErr EOutOfGas
  else if h_cold a then charge_b s cold_cost else BOk s.
(** EXTCODECOPY, lib.rs:318-339. *)
Definition extcodecopy (cost : Z -> Z) (cold_cost : Z) (s : bst) (a : account) (memory_offset code_offset len : Z) : bres bst :=
  do len <- to_usize len;
  do s <- charge_b s (cost len);
  do (memory_offset, s) <- (if len =? 0 then BOk (0, s)
                            else do memory_offset <- to_usize memory_offset; do s <- expand s memory_offset len; BOk (memory_offset, s));
  do s <- load_account cold_cost s a;
  set_data s memory_offset (Z.min (sat_usize code_offset) (Z.of_nat (length (h_code a)))) len (h_code a).

(** RETURNDATACOPY, lib.rs:342-363. *)
Definition returndatacopy (copy_cost : Z -> Z) (s : bst) (memory_offset offset len : Z) (ret : list Z) : bres bst :=
  do len <- to_usize len;
  let data_offset := sat_usize offset in
  let data_end := sat_usize (data_offset + len) in
  if Z.of_nat (length ret) <? data_end then BErr EOutOfOffset
  else
    do s <- charge_b s (copy_cost len);
    if len =? 0 then BOk s
    else
      do memory_offset <- to_usize memory_offset;
      do s <- expand s memory_offset len;
      (if data_end <? data_offset then BErr EPanic
       else write s memory_offset (firstn (Z.to_nat (data_end - data_offset)) (skipn (Z.to_nat data_offset) ret))).

(** MCOPY, lib.rs:578-592. *)
Definition mcopy (mcopy_cost : Z -> Z) (s : bst) (dst src len : Z) : bres bst :=
  do len <- to_usize len;
  do s <- charge_b s (mcopy_cost len);
  if len =? 0 then BOk s
  else
    do dst <- to_usize dst;
    do src <- to_usize src;
    do s <- expand s (Z.max dst src) len;
    do bytes <- slice s src len;
    write s dst bytes.

(** [do_calldataload], lib.rs:249-265, with the saturated offset of CALLDATALOAD, lib.rs:233-238: the bytes
    of the word. *)
Definition calldataload (offset : Z) (input : list Z) : list Z :=
  let offset := sat_usize offset in
  let n := Z.of_nat (length input) in
  if offset <? n then
    let count := Z.to_nat (Z.min 32 (n - offset)) in
    firstn count (skipn (Z.to_nat offset) input) ++ repeat 0 (32 - count)%nat
  else repeat 0 32.

(** KECCAK256, lib.rs:179-214. [hash] is keccak (external). *)
Definition keccak256 (hash : list Z -> Z) (cost : Z -> Z) (s : bst) (offset len : Z) : bres (Z * bst) :=
  do len <- to_usize len;
  if len =? 0 then BOk (hash [], s)
  else
    do s <- charge_b s (cost len);
    do offset <- to_usize offset;
    do s <- expand s offset len;
    do data <- slice s offset len;
    BOk (hash data, s).

(** LOG0..LOG4, lib.rs:595-630: the topics (in order) and the data handed to the host. [topics] are the
    stack words below the length, top first; the code reads them at [sp - i]. *)
Definition log_n (cost : Z -> Z -> Z) (is_static : bool) (s : bst) (offset len : Z) (topics : list Z) : bres (list Z * list Z * bst) :=
  if is_static then BErr EStatic
  else
    do len <- to_usize len;
    do s <- charge_b s (cost (Z.of_nat (length topics)) len);
    if len =? 0 then BOk (topics, [], s)
    else
      do offset <- to_usize offset;
      do s <- expand s offset len;
      do data <- slice s offset len;
      BOk (topics, data, s).

(** RETURN and REVERT, lib.rs:826-843: the output. *)
Definition do_return (s : bst) (offset len : Z) : bres (list Z * bst) :=
  do len <- to_usize len;
  if len =? 0 then BOk ([], s)
  else
    do offset <- to_usize offset;
    do s <- expand s offset len;
    do data <- slice s offset len;
    BOk (data, s).

(** ** BLOCKHASH, lib.rs:378-411. [block_hash] is the host's; [None] = error of the host. *)
Definition blockhash (block_hash : Z -> option Z) (block_number requested : Z) : bres Z :=
  if block_number <? requested then BOk 0
  else
    let diff := sat_usize (block_number - requested) in
    if diff =? 0 then BOk 0
    else if diff <=? 256 then match block_hash (sat_usize requested) with Some h => BOk h | None => BErr EHost end
    else BOk 0.

(** ** Calls and creations. *)

(** Gas with the EIP-8037 reservoir: [record_state_cost] (revm, external) takes from the reservoir first. *)
Definition state_gas (s : bst) (reservoir c : Z) : bres (bst * Z) :=
  if c <=? reservoir then BOk (s, reservoir - c)
  else do s <- charge_b s (c - reservoir); BOk (s, 0).

Inductive call_kind := KCall | KCallCode | KDelegateCall | KStaticCall.
Definition kind_eqb (a b : call_kind) : bool :=
  match a, b with KCall, KCall | KCallCode, KCallCode | KDelegateCall, KDelegateCall | KStaticCall, KStaticCall => true | _, _ => false end.

(** The gas schedule entries used here; [gp_reduction] is 64 on Ethereum. *)
Record gas_params := mkGP { gp_transfer : Z; gp_stipend : Z; gp_reduction : Z; gp_initcode : Z -> Z; gp_create : Z; gp_create2 : Z -> Z }.
(** revm's [call_stipend_reduction] (external): all but one part in [gp_reduction]. *)
Definition call_stipend_reduction (gp : gas_params) (g : Z) : Z := g - g / gp_reduction gp.

(** The frame being executed. *)
Record frame := mkFr { fr_static : bool; fr_target : Z; fr_caller : Z; fr_value : Z }.
(** [CallInputs] (revm), the fields revmc fills in; [ci_apparent]: the value is only shown, not moved. *)
Record call_inputs := mkCI {
  ci_input : option (Z * Z); ci_output : option (Z * Z); ci_gas : Z; ci_code : Z; ci_target : Z; ci_caller : Z;
  ci_value : Z; ci_apparent : bool; ci_static : bool; ci_reservoir : Z
}.

(** A memory range given to the sub-frame: empty ranges are not looked at (lib.rs:735-756). *)
Definition frame_range (s : bst) (offset len : Z) : bres (option (Z * Z) * bst) :=
  do len <- to_usize len;
  if len =? 0 then BOk (None, s)
  else
    do offset <- to_usize offset;
    do s <- expand s offset len;
    BOk (Some (offset, len), s).

(** [__revmc_builtin_call], lib.rs:701-823. [load gas] is [load_account_delegated] (revm, external): the
    dynamic and the state gas of reaching the callee. *)
Definition builtin_call (gp : gas_params) (tangerine : bool) (load : Z -> option (Z * Z)) (fr : frame) (kind : call_kind)
    (s : bst) (reservoir : Z) (limit to value in_offset in_len out_offset out_len : Z) : bres (call_inputs * bst) :=
  let local_gas_limit := sat_usize limit in
  let has_value := match kind with KCall | KCallCode => true | _ => false end in
  let value := if has_value then value else 0 in
  let transfers := negb (value =? 0) in
  if kind_eqb kind KCall && fr_static fr && transfers then BErr EStatic
  else
    do (input, s) <- frame_range s in_offset in_len;
    do (output, s) <- frame_range s out_offset out_len;
    do s <- (if transfers then charge_b s (gp_transfer gp) else BOk s);
    match load (mm_gas (b_mem s)) with
    | None => BErr EHost
    | Some (dynamic, state_cost) =>
      do s <- charge_b s dynamic;
      do (s, reservoir) <- state_gas s reservoir state_cost;
      let gas_limit := if tangerine then Z.min (call_stipend_reduction gp (mm_gas (b_mem s))) local_gas_limit else local_gas_limit in
      do s <- charge_b s gas_limit;
      let gas_limit := if has_value && transfers then sat_usize (gas_limit + gp_stipend gp) else gas_limit in
      BOk (mkCI input output gas_limit to
             (match kind with KDelegateCall | KCallCode => fr_target fr | _ => to end)
             (if kind_eqb kind KDelegateCall then fr_caller fr else fr_target fr)
             (if kind_eqb kind KDelegateCall then fr_value fr else value)
             (kind_eqb kind KDelegateCall)
             (fr_static fr || kind_eqb kind KStaticCall) reservoir, s)
    end.

(** [CreateInputs] (revm), the fields revmc fills in; [cr_salt] for CREATE2. *)
Record create_inputs := mkCR { cr_caller : Z; cr_salt : option Z; cr_value : Z; cr_code : list Z; cr_gas : Z; cr_reservoir : Z }.
(** [__revmc_builtin_create], lib.rs:633-698. [max_init] is the host's limit (checked from Shanghai on),
    [state_cost] the EIP-8037 state gas (0 when it is off). *)
Definition builtin_create (gp : gas_params) (tangerine shanghai : bool) (max_init state_cost : Z) (fr : frame)
    (s : bst) (reservoir : Z) (value code_offset len : Z) (salt : option Z) : bres (create_inputs * bst) :=
  if fr_static fr then BErr EStatic
  else
    do len <- to_usize len;
    do (code, s) <-
      (if len =? 0 then BOk ([], s)
       else
         do s <- (if shanghai then if max_init <? len then BErr EInitCodeSize else charge_b s (gp_initcode gp len) else BOk s);
         do code_offset <- to_usize code_offset;
         do s <- expand s code_offset len;
         do code <- slice s code_offset len;
         BOk (code, s));
    do s <- charge_b s (match salt with Some _ => gp_create2 gp len | None => gp_create gp end);
    do (s, reservoir) <- state_gas s reservoir state_cost;
    let gas_limit := mm_gas (b_mem s) in
    let gas_limit := if tangerine then call_stipend_reduction gp gas_limit else gas_limit in
    do s <- charge_b s gas_limit;
    BOk (mkCR (fr_target fr) salt value code gas_limit reservoir, s).
