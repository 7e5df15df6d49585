(** The copying, hashing, logging, block-hash and call instructions as the EVM defines them: unbounded
    integers, memory as a total map of bytes, one total price per instruction. *)
From Coq Require Export List ZArith Bool.
From Verif Require Export GasMemSpec.
Export ListNotations.
Open Scope Z_scope.

(** Gas, active words, memory contents (zero where nothing was written). *)
Record evm := mkE { e_gas : Z; e_words : Z; e_mem : Z -> Z }.

(** Active words after touching a range; an empty range touches nothing. *)
Definition words_with (w : Z) (r : Z * Z) : Z :=
  let '(off, len) := r in if len =? 0 then w else Z.max w ((off + len + 31) / 32).
(** Pay [cost] and the growth of the memory over the touched ranges: [None] = out of gas. *)
Definition spend (e : evm) (cost : Z) (ranges : list (Z * Z)) : option evm :=
  let w := fold_left words_with ranges (e_words e) in
  let total := cost + (C_mem w - C_mem (e_words e)) in
  if e_gas e <? total then None else Some (mkE (e_gas e - total) w (e_mem e)).

(** Byte [k] of a data area that reads zero beyond its end. *)
Definition data_at (data : list Z) (k : Z) : Z := if k <? Z.of_nat (length data) then nth (Z.to_nat k) data 0 else 0.
(** Memory with [len] bytes at [off] given by [f]; the bytes of a range. *)
Definition store (m : Z -> Z) (off len : Z) (f : Z -> Z) (i : Z) : Z :=
  if (off <=? i) && (i <? off + len) then f (i - off) else m i.
Definition load_range (m : Z -> Z) (off len : Z) : list Z := map (fun k => m (off + Z.of_nat k)) (seq 0 (Z.to_nat len)).
Definition with_mem (e : evm) (m : Z -> Z) : evm := mkE (e_gas e) (e_words e) m.

(** CALLDATACOPY, CODECOPY, EXTCODECOPY: [cost] is everything but the memory. *)
Definition evm_copy (cost : Z) (e : evm) (mo off len : Z) (data : list Z) : option evm :=
  match spend e cost [(mo, len)] with
  | None => None
  | Some e' => Some (with_mem e' (store (e_mem e') mo len (fun k => data_at data (off + k))))
  end.
(** RETURNDATACOPY fails when it would read beyond the end. *)
Definition evm_returndatacopy (cost : Z) (e : evm) (mo off len : Z) (ret : list Z) : option evm :=
  if Z.of_nat (length ret) <? off + len then None else evm_copy cost e mo off len ret.
(** MCOPY reads everything before it writes. *)
Definition evm_mcopy (cost : Z) (e : evm) (dst src len : Z) : option evm :=
  match spend e cost [(dst, len); (src, len)] with
  | None => None
  | Some e' => Some (with_mem e' (store (e_mem e) dst len (fun k => e_mem e (src + k))))
  end.
(** KECCAK256, LOGn, RETURN and REVERT read a range. *)
Definition evm_read (cost : Z) (e : evm) (off len : Z) : option (list Z * evm) :=
  match spend e cost [(off, len)] with
  | None => None
  | Some e' => Some (load_range (e_mem e) off len, e')
  end.

(** BLOCKHASH: the 256 blocks before the current one. *)
Definition evm_blockhash (hash : Z -> option Z) (number requested : Z) : option Z :=
  if (requested <? number) && (number <=? requested + 256) then hash requested else Some 0.

(** Gas given to a sub-frame out of [r], asked for [limit]: after Tangerine Whistle (EIP-150) at most all
    but one part in [red]; before, the full amount or out of gas. Result: (kept, given). *)
Definition forward (tangerine : bool) (red r limit : Z) : option (Z * Z) :=
  let given := if tangerine then Z.min limit (r - r / red) else limit in
  if r <? given then None else Some (r - given, given).

(** A call: the memory ranges and the value transfer, then reaching the callee (whose price the host tells,
    given the gas left), with state gas taken from the reservoir first, then the gas given away.
    Result: the caller's state, the gas given, what is left of the reservoir. *)
Definition evm_call (tangerine : bool) (red transfer : Z) (reach : Z -> option (Z * Z)) (e : evm) (reservoir : Z)
    (moves_value : bool) (limit : Z) (ranges : list (Z * Z)) : option (evm * Z * Z) :=
  match spend e (if moves_value then transfer else 0) ranges with
  | None => None
  | Some e1 =>
    match reach (e_gas e1) with
    | None => None
    | Some (price, state_price) =>
      match spend e1 (price + Z.max 0 (state_price - reservoir)) [] with
      | None => None
      | Some e2 =>
        match forward tangerine red (e_gas e2) limit with
        | None => None
        | Some (kept, given) => Some (mkE kept (e_words e2) (e_mem e2), given, Z.max 0 (reservoir - state_price))
        end
      end
    end
  end.

(** A creation: everything is offered to the constructor. Also gives the init code. *)
Definition evm_create (tangerine : bool) (red price state_price : Z) (e : evm) (reservoir off len : Z) : option (evm * Z * Z * list Z) :=
  match spend e (price + Z.max 0 (state_price - reservoir)) [(off, len)] with
  | None => None
  | Some e1 =>
    match forward tangerine red (e_gas e1) (e_gas e1) with
    | None => None
    | Some (kept, given) =>
        Some (mkE kept (e_words e1) (e_mem e1), given, Z.max 0 (reservoir - state_price), load_range (e_mem e) off len)
    end
  end.
