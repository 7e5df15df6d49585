(** Memory expansion and gas charging as the EVM defines them, over unbounded integers. *)
From Verif Require Import ArithSpec.
Open Scope Z_scope.

(** Cost of a memory of [w] words (Yellow Paper, C_mem). *)
Definition C_mem (w : Z) : Z := 3 * w + w * w / 512.

(** Touch [len > 0] bytes at [offset] with [gas] left and [w] words active: [None] = out of gas. *)
Definition evm_touch (gas w offset len : Z) : option (Z * Z) :=
  let w' := Z.max w ((offset + len + 31) / 32) in
  let cost := C_mem w' - C_mem w in
  if gas <? cost then None else Some (gas - cost, w').

(** An operation on the range [offset, offset + len): an empty range costs and touches nothing. *)
Definition evm_range (gas w offset len : Z) : option (Z * Z) :=
  if len =? 0 then Some (gas, w) else evm_touch gas w offset len.

(** A list of costs paid from [gas]. *)
Fixpoint pay (gas : Z) (l : list Z) : option Z :=
  match l with
  | [] => Some gas
  | c :: l' => if gas <? c then None else pay (gas - c) l'
  end.
