(** Memory as the EVM defines it: which ranges an instruction touches (Yellow Paper, appendix H, and
    EIPs 140, 211, 214, 1014, 5656) and the size memory has afterwards. *)
From Verif Require Import FlowSpec InstModel.
Open Scope Z_scope.

(** Ranges (offset, length) touched; the stack is listed top first. *)
Definition evm_ranges (op : Z) (st : list Z) : list (Z * Z) :=
  let arg k := nth k st 0 in
  match op with
  | 0x20 (* KECCAK256 *) => [(arg 0%nat, arg 1%nat)]
  | 0x37 (* CALLDATACOPY *) | 0x39 (* CODECOPY *) | 0x3e (* RETURNDATACOPY *) => [(arg 0%nat, arg 2%nat)]
  | 0x3c (* EXTCODECOPY *) => [(arg 1%nat, arg 3%nat)]
  | 0x51 (* MLOAD *) | 0x52 (* MSTORE *) => [(arg 0%nat, 32)]
  | 0x53 (* MSTORE8 *) => [(arg 0%nat, 1)]
  | 0x5e (* MCOPY *) => [(arg 0%nat, arg 2%nat); (arg 1%nat, arg 2%nat)]
  | 0xa0 | 0xa1 | 0xa2 | 0xa3 | 0xa4 (* LOG0 .. LOG4 *) => [(arg 0%nat, arg 1%nat)]
  | 0xf0 (* CREATE *) | 0xf5 (* CREATE2 *) => [(arg 1%nat, arg 2%nat)]
  | 0xf1 (* CALL *) | 0xf2 (* CALLCODE *) => [(arg 3%nat, arg 4%nat); (arg 5%nat, arg 6%nat)]
  | 0xf4 (* DELEGATECALL *) | 0xfa (* STATICCALL *) => [(arg 2%nat, arg 3%nat); (arg 4%nat, arg 5%nat)]
  | 0xf3 (* RETURN *) | 0xfd (* REVERT *) => [(arg 0%nat, arg 1%nat)]
  | _ => []
  end.
(** Number of operands of the instructions above. *)
Definition mem_operands (op : Z) : Z :=
  match op with
  | 0x51 => 1
  | 0x20 | 0x52 | 0x53 | 0xa0 | 0xf3 | 0xfd => 2
  | 0x37 | 0x39 | 0x3e | 0x5e | 0xa1 | 0xf0 => 3
  | 0x3c | 0xa2 | 0xf5 => 4
  | 0xa3 => 5
  | 0xa4 | 0xf4 | 0xfa => 6
  | 0xf1 | 0xf2 => 7
  | _ => 0
  end.
(** Bytes of memory (whole words) a range needs; an empty range needs none. *)
Definition range_size (r : Z * Z) : Z :=
  let '(off, len) := r in if len =? 0 then 0 else 32 * ((off + len + 31) / 32).
Definition evm_mem (op : Z) (st : list Z) : Z := fold_right Z.max 0 (map range_size (evm_ranges op st)).

(** [msize y] is the memory size in state [y]: 0 at the start, grown by every instruction to what it
    touches, never beyond what 2^63 bytes of memory would cost (more than any gas limit). *)
Record mem_sem {Y} (prog : list idata) (sem : nat -> list Z -> Y -> option (list Z * Y)) (msize : Y -> Z) (y0 : Y) : Prop := {
  mo_start : msize y0 = 0;
  mo_step : forall i d args y outs y', nth_error prog i = Some d -> sem i args y = Some (outs, y') ->
    msize y' = Z.max (msize y) (evm_mem (d_op d) args) /\ msize y' < 2 ^ 63;
  mo_io : forall i d, nth_error prog i = Some d -> f_disabled (d_flags d) || f_unknown (d_flags d) = false ->
    mem_operands (d_op d) <= fst (d_io d)
}.
