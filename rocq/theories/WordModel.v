(** Model of [EvmWord] and of the conversions around it.

    Sources: crates/revmc-context/src/lib.rs (EvmWord), crates/revmc-builtins/src/macros.rs
    (try_into_usize). A [U256] (ruint, external) is its value; an [EvmWord] is its 32 bytes in memory
    order. [big] is [cfg(target_endian = "big")], [bits] the width of usize. *)
From Verif Require Export ArithSpec OpcodeModel.
Open Scope Z_scope.

(** Little-endian bytes of an integer, and back. *)
Fixpoint le_bytes (n : nat) (v : Z) : list Z :=
  match n with O => [] | S n' => v mod 256 :: le_bytes n' (v / 256) end.
Fixpoint le_val (l : list Z) : Z := match l with [] => 0 | b :: l' => b + 256 * le_val l' end.

(** [U256::as_limbs]: four u64, least significant first. *)
Definition as_limbs (u : Z) : list Z := [u mod 2 ^ 64; u / 2 ^ 64 mod 2 ^ 64; u / 2 ^ 128 mod 2 ^ 64; u / 2 ^ 192 mod 2 ^ 64].
(** The 32 bytes of a [U256] in memory on a little-endian machine: its limbs one after the other. *)
Definition u256_mem (u : Z) : list Z := concat (map (le_bytes 8) (as_limbs u)).
Definition u256_of_mem (b : list Z) : Z :=
  le_val (firstn 8 b) + 2 ^ 64 * (le_val (firstn 8 (skipn 8 b)) + 2 ^ 64 * (le_val (firstn 8 (skipn 16 b)) + 2 ^ 64 * le_val (skipn 24 b))).
(** [U256::to_be_bytes] / [from_be_bytes] / [from_be_slice] (external; [be_value] is in OpcodeModel). *)
Definition u256_to_be (u : Z) : list Z := rev (le_bytes 32 u).

(** [from_u256], lib.rs:716-721; [to_u256] / [into_u256], lib.rs:801-815. *)
Definition from_u256 (big : bool) (u : Z) : list Z := if big then u256_to_be u else u256_mem u.
Definition to_u256 (big : bool) (w : list Z) : Z := if big then be_value w else u256_of_mem w.
(** [swap_bytes], lib.rs:780-783. *)
Definition swap_bytes (w : list Z) : list Z := rev w.
(** [from_be]/[from_le]/[to_be]/[to_le], lib.rs:725-739 and 762-776. *)
Definition from_be (big : bool) (w : list Z) : list Z := if big then w else swap_bytes w.
Definition from_le (big : bool) (w : list Z) : list Z := if big then swap_bytes w else w.
Definition to_be (big : bool) (w : list Z) : list Z := if big then w else swap_bytes w.
Definition to_le (big : bool) (w : list Z) : list Z := if big then swap_bytes w else w.
(** [from_be_bytes], [from_le_bytes], [from_ne_bytes], lib.rs:686-712 ([from_be_slice] and [from_le_slice]
    go through [U256], which panics on more than 32 bytes: [None]). *)
Definition from_be_bytes (big : bool) (b : list Z) : list Z := from_be big b.
Definition from_le_bytes (big : bool) (b : list Z) : list Z := from_le big b.
Definition from_be_slice (big : bool) (b : list Z) : option (list Z) :=
  if (length b <=? 32)%nat then Some (from_u256 big (be_value b)) else None.
Definition from_le_slice (big : bool) (b : list Z) : option (list Z) :=
  if (length b <=? 32)%nat then Some (from_u256 big (le_val b)) else None.
(** [to_be_bytes], [to_le_bytes], lib.rs:743-752. *)
Definition to_be_bytes (big : bool) (w : list Z) : list Z := to_be big w.
Definition to_le_bytes (big : bool) (w : list Z) : list Z := to_le big w.
(** [to_address], lib.rs:819-821; [Address::from_word] (external) keeps bytes 12..32. *)
Definition to_address (big : bool) (w : list Z) : list Z := skipn 12 (to_be_bytes big w).
(** [Address::into_word] (external), used by ORIGIN, COINBASE, ...: twelve zero bytes in front. *)
Definition into_word (a : list Z) : list Z := repeat 0 12 ++ a.

(** [try_into_usize!], macros.rs:50-62; ruint's [TryFrom<U256> for usize] used by
    [TryFrom<EvmWord>], lib.rs:646-671, tests the same. *)
Definition limb (u : Z) (i : nat) : Z := nth i (as_limbs u) 0.
Definition try_usize (bits : Z) (big : bool) (w : list Z) : option Z :=
  let u := to_u256 big w in
  if (2 ^ bits - 1 <? limb u 0) || negb (limb u 1 =? 0) || negb (limb u 2 =? 0) || negb (limb u 3 =? 0) then None
  else Some (limb u 0).
(** revm's [as_u64_saturated!] and [as_usize_saturated!] (external). *)
Definition as_u64_sat (u : Z) : Z :=
  if (limb u 1 =? 0) && (limb u 2 =? 0) && (limb u 3 =? 0) then limb u 0 else 2 ^ 64 - 1.
Definition as_usize_sat (bits u : Z) : Z := Z.min (as_u64_sat u) (2 ^ bits - 1).
