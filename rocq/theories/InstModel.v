(** Model of [InstData], its predicates, and the instruction list built by [Bytecode::new_mono].

    Source: crates/revmc-codegen/src/bytecode/mod.rs. *)
From Verif Require Export OpcodeModel.
Open Scope Z_scope.

(** ** Opcode numbers used by the passes (revm_bytecode::opcode). *)
Definition OP_POP := 0x50.
Definition OP_MLOAD := 0x51.
Definition OP_MSTORE := 0x52.
Definition OP_MSTORE8 := 0x53.
Definition OP_SLOAD := 0x54.
Definition OP_SSTORE := 0x55.
Definition OP_JUMP := 0x56.
Definition OP_JUMPI := 0x57.
Definition OP_MSIZE := 0x59.
Definition OP_GAS := 0x5a.
Definition OP_EXP := 0x0a.
Definition OP_CREATE := 0xf0.
Definition OP_CALL := 0xf1.
Definition OP_CALLCODE := 0xf2.
Definition OP_RETURN := 0xf3.
Definition OP_DELEGATECALL := 0xf4.
Definition OP_CREATE2 := 0xf5.
Definition OP_STATICCALL := 0xfa.
Definition OP_REVERT := 0xfd.
Definition OP_INVALID := 0xfe.
Definition OP_SELFDESTRUCT := 0xff.

(** [InstFlags], mod.rs:1184-1209, one field per bit. *)
Record iflags := mkF {
  f_static : bool;      (* STATIC_JUMP *)
  f_invalid : bool;     (* INVALID_JUMP *)
  f_multi : bool;       (* MULTI_JUMP *)
  f_constcond : bool;   (* CONST_JUMP_CONDITION *)
  f_disabled : bool;    (* DISABLED *)
  f_unknown : bool;     (* UNKNOWN *)
  f_noop : bool;        (* NOOP *)
  f_head : bool;        (* STACK_SECTION_HEAD *)
  f_dead : bool         (* DEAD_CODE *)
}.
Definition no_flags := mkF false false false false false false false false false.

(** [InstData], mod.rs:951-975. [data] is the u32 payload; the reachable bit of a JUMPDEST (high
    bit of [data], [JUMPDEST_REACHABLE] mod.rs:1058) is the separate field [d_reach], and the target
    index of a static jump (mod.rs:1090-1101, also [data]) the separate field [d_target]: an
    instruction never uses both. *)
Record idata := mkD {
  d_op : Z;
  d_flags : iflags;
  d_gas : Z;              (* base_gas: u16 *)
  d_io : Z * Z;           (* stack_io: (u8, u8) *)
  d_data : Z;
  d_reach : bool;
  d_target : nat;
  d_gas_section : Z;      (* GasSection.gas_cost: u32 *)
  d_stack_section : Z * Z (* StackSection (inputs: u16, max_growth: i16) *)
}.

(** Field updates. *)
Definition set_flags (d : idata) (f : iflags) : idata :=
  mkD (d_op d) f (d_gas d) (d_io d) (d_data d) (d_reach d) (d_target d) (d_gas_section d) (d_stack_section d).
Definition set_dead (d : idata) : idata :=
  let f := d_flags d in
  set_flags d (mkF (f_static f) (f_invalid f) (f_multi f) (f_constcond f) (f_disabled f) (f_unknown f)
                   (f_noop f) (f_head f) true).
Definition set_noop (d : idata) : idata :=
  let f := d_flags d in
  set_flags d (mkF (f_static f) (f_invalid f) (f_multi f) (f_constcond f) (f_disabled f) (f_unknown f)
                   true (f_head f) (f_dead f)).
Definition set_head (d : idata) : idata :=
  let f := d_flags d in
  set_flags d (mkF (f_static f) (f_invalid f) (f_multi f) (f_constcond f) (f_disabled f) (f_unknown f)
                   (f_noop f) true (f_dead f)).
Definition set_reach (d : idata) (b : bool) : idata :=
  mkD (d_op d) (d_flags d) (d_gas d) (d_io d) (d_data d) b (d_target d) (d_gas_section d) (d_stack_section d).
Definition set_target (d : idata) (t : nat) : idata :=
  mkD (d_op d) (d_flags d) (d_gas d) (d_io d) (d_data d) (d_reach d) t (d_gas_section d) (d_stack_section d).
Definition set_gas_section (d : idata) (g : Z) : idata :=
  mkD (d_op d) (d_flags d) (d_gas d) (d_io d) (d_data d) (d_reach d) (d_target d) g (d_stack_section d).
Definition set_stack_section (d : idata) (s : Z * Z) : idata :=
  mkD (d_op d) (d_flags d) (d_gas d) (d_io d) (d_data d) (d_reach d) (d_target d) (d_gas_section d) s.

(** Predicates, mod.rs:1013-1179. *)
Definition is_jump (d : idata) : bool := (d_op d =? OP_JUMP) || (d_op d =? OP_JUMPI).
Definition is_static_jump (d : idata) : bool := is_jump d && f_static (d_flags d).
Definition has_const_jumpi_condition (d : idata) : bool := (d_op d =? OP_JUMPI) && f_constcond (d_flags d).
Definition is_jumpdest (d : idata) : bool := d_op d =? OP_JUMPDEST.
Definition is_reachable_jumpdest (dyn : bool) (d : idata) : bool := is_jumpdest d && (dyn || d_reach d).
Definition is_dead (d : idata) : bool := f_dead (d_flags d).
(** [requires_gasleft], mod.rs:1126-1131; [istanbul] is [spec_id.is_enabled_in(ISTANBUL)]. *)
Definition requires_gasleft (istanbul : bool) (d : idata) : bool :=
  (d_op d =? OP_GAS) || ((d_op d =? OP_SSTORE) && istanbul).
(** [is_diverging], mod.rs:1146-1161 (the cfg(test) opcode is not modelled). *)
Definition is_diverging (d : idata) : bool :=
  ((d_op d =? OP_JUMP) && f_invalid (d_flags d))
  || f_disabled (d_flags d)
  || f_unknown (d_flags d)
  || ((d_op d =? OP_STOP) || (d_op d =? OP_RETURN) || (d_op d =? OP_REVERT) || (d_op d =? OP_INVALID)
      || (d_op d =? OP_SELFDESTRUCT)).
Definition can_fall_through (d : idata) : bool :=
  negb (is_diverging d) && negb (d_op d =? OP_JUMP) && negb (has_const_jumpi_condition d).
Definition is_branching (d : idata) : bool := is_jump d || is_diverging d.
(** [may_suspend], mod.rs:1165-1178. *)
Definition may_suspend (d : idata) : bool :=
  (d_op d =? OP_CALL) || (d_op d =? OP_CALLCODE) || (d_op d =? OP_DELEGATECALL)
  || (d_op d =? OP_STATICCALL) || (d_op d =? OP_CREATE) || (d_op d =? OP_CREATE2).

(** ** Building the list. *)

(** [OpcodeInfo] (info.rs:14-70): unknown / disabled bits and base gas of an opcode in a hardfork. *)
Record opinfo := mkInfo { oi_unknown : bool; oi_disabled : bool; oi_gas : Z }.
Definition active_of (info : Z -> opinfo) : optable :=
  fun op => negb (oi_unknown (info op)) && negb (oi_disabled (info op)).

(** The [InstData] pushed by the parse loop, mod.rs:250-303, from the parsed instruction. *)
Definition idata_of (info : Z -> opinfo) (i : inst) : idata :=
  mkD (i_op i)
      (mkF false false false false (oi_disabled (info (i_op i))) (oi_unknown (info (i_op i))) false false false)
      (if i_active i then oi_gas (info (i_op i)) else 0)
      (i_io i) (i_data i) false 0 0 (0, 0).

(** [InstData::new(op::STOP)], mod.rs:994-999; [stack_io(STOP)] is (0,0). *)
Definition stop_padding : idata := mkD OP_STOP no_flags 0 (0, 0) 0 false 0 0 (0, 0).

(** STOP padding, mod.rs:319-324. *)
Definition pad_insts (l : list idata) : list idata :=
  match last (map Some l) None with
  | Some d => if can_fall_through d then l ++ [stop_padding] else l
  | None => [stop_padding]
  end.

(** [Bytecode::new_mono], the [insts] field. *)
Definition new_insts (info : Z -> opinfo) (stack_io : Z -> Z * Z) (code : list Z) : option (list idata) :=
  match parse (active_of info) stack_io code with
  | Some st => Some (pad_insts (map (idata_of info) (p_insts st)))
  | None => None
  end.
