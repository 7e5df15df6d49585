(** Model of gas charging in generated code and of memory expansion for computed offsets.

    Sources: crates/revmc-codegen/src/compiler/translate/mod.rs (gas_cost, build_ensure_memory,
    u256_to_u64_saturating), crates/revmc-builtins/src/{macros,utils,lib}.rs, crates/revmc-context/src/lib.rs. *)
From Verif Require Export ArithSpec.
Open Scope Z_scope.

Definition U64 := 2 ^ 64.
Definition sat_u64 (x : Z) : Z := Z.min x (U64 - 1).

(** ** Gas counter. *)

(** Results distinguished by the wrapper; [Fail] stands for every other failure code. *)
Inductive code := Continue | OutOfGas | Fail.

(** One charge: by an inlined [gas_cost], by the [gas!] macro of a builtin, or by a builtin failing
    with another code (e.g. MemoryOOG) when the gas does not suffice. *)
Inductive charge := Inline (c : Z) | Builtin (c : Z) | BuiltinMem (c : Z).

(** [gas_cost], translate/mod.rs:1669-1682: the difference is stored before the overflow check. *)
Definition gas_cost (rem c : Z) : Z * code :=
  ((rem - c) mod U64, if rem <? c then OutOfGas else Continue).
(** [gas_cost_imm], translate/mod.rs:1660-1666: zero is not charged at all. *)
Definition gas_cost_imm (rem c : Z) : Z * code := if c =? 0 then (rem, Continue) else gas_cost rem c.
(** [gas!], builtins/src/macros.rs:2-9; revm's [record_regular_cost] (external) leaves the counter
    alone when it fails. *)
Definition gas_macro (rem c : Z) (err : code) : Z * code :=
  if rem <? c then (rem, err) else (rem - c, Continue).
Definition do_charge (rem : Z) (c : charge) : Z * code :=
  match c with
  | Inline c => gas_cost_imm rem c
  | Builtin c => gas_macro rem c OutOfGas
  | BuiltinMem c => gas_macro rem c Fail
  end.
(** A compiled function performing a list of charges and stopping at the first failure. *)
Fixpoint charges (rem : Z) (l : list charge) : Z * code :=
  match l with
  | [] => (rem, Continue)
  | c :: l' =>
      match do_charge rem c with
      | (rem', Continue) => charges rem' l'
      | r => r
      end
  end.
(** [call_with_interpreter_inner], revmc-context/src/lib.rs:321-332: gas reported to the caller. *)
Definition reported (r : Z * code) : Z * code :=
  match r with (_, OutOfGas) => (0, OutOfGas) | _ => r end.

(** ** Memory expansion. *)

(** revm's [num_words] and [memory_gas] (external), on usize/u64 with saturating operations. *)
Definition num_words (n : Z) : Z := sat_u64 (n + 31) / 32.
Definition memory_gas (words : Z) : Z := sat_u64 (sat_u64 (3 * words) + sat_u64 (words * words) / 512).

(** Memory state: gas left, size in words and the expansion cost paid so far. *)
Record mem := mkMem { mm_gas : Z; mm_words : Z; mm_paid : Z }.

(** [ensure_memory], builtins/src/utils.rs:85-95, i.e. revm's [resize_memory] on usize operands. *)
Definition ensure_memory (m : mem) (offset len : Z) : option mem :=
  let new_words := num_words (sat_u64 (offset + len)) in
  if mm_words m <? new_words then
    let total := memory_gas new_words in
    let cost := total - mm_paid m in
    if mm_gas m <? cost then None else Some (mkMem (mm_gas m - cost) new_words total)
  else Some m.

(** [u256_to_u64_saturating], translate/mod.rs:2021-2029; [bits] is 63 or 64. *)
Definition u256_to_u64_saturating (v bits : Z) : Z :=
  let sentinel := 2 ^ bits - 1 in
  if v <=? sentinel then v mod U64 else sentinel.

(** [build_ensure_memory], translate/mod.rs:1686-1722, the checked path: the address accessed
    (relative to the memory base) and the new memory state; [None] = failure. [mem_len] is
    [32 * words]. [Mresize] is [ensure_memory(min_size, 0)], builtins/src/lib.rs:475-477. *)
Definition build_ensure_memory (m : mem) (offset len : Z) : option (Z * mem) :=
  let off := u256_to_u64_saturating offset 63 in
  let min_size := (off + len) mod U64 in
  if 32 * mm_words m <? min_size
  then match ensure_memory m min_size 0 with Some m' => Some (off, m') | None => None end
  else Some (off, m).

(** [try_into_usize!], builtins/src/macros.rs:52-65. *)
Definition try_into_usize (v : Z) : option Z := if v <? U64 then Some v else None.

(** Memory range of a builtin with computed length (KECCAK256, the copies, LOG, RETURN, ...;
    builtins/src/lib.rs:205-212, utils.rs:102-106): no access when the length is zero. *)
Definition builtin_range (m : mem) (offset len : Z) : option (option (Z * Z) * mem) :=
  match try_into_usize len with
  | None => None
  | Some len =>
      if len =? 0 then Some (None, m)
      else match try_into_usize offset with
           | None => None
           | Some off =>
               match ensure_memory m off len with
               | Some m' => Some (Some (off, len), m')
               | None => None
               end
           end
  end.
