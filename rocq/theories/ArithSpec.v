(** EVM arithmetic on 256-bit words, written from the yellow paper / EIPs over unbounded integers,
    independently of revmc. A word is an integer in [0, 2^256). *)
From Coq Require Export List ZArith Lia Bool.
Export ListNotations.
Open Scope Z_scope.

Definition W : Z := 2 ^ 256.
Definition is_word (x : Z) : Prop := 0 <= x < W.

(** Two's complement reading of a word. *)
Definition signed (x : Z) : Z := if x <? 2 ^ 255 then x else x - W.
(** The word that represents an integer. *)
Definition word (x : Z) : Z := x mod W.
Definition flag (b : bool) : Z := if b then 1 else 0.

(** The pure instructions of the EVM that revmc can compute inline or at compile time. *)
Inductive aop :=
| ADD | MUL | SUB | DIV | SDIV | MOD | SMOD | ADDMOD | MULMOD | EXP | SIGNEXTEND
| LT | GT | SLT | SGT | EQ | ISZERO | AND | OR | XOR | NOT | BYTE | SHL | SHR | SAR | CLZ.

Definition aop_code (o : aop) : Z :=
  match o with
  | ADD => 0x01 | MUL => 0x02 | SUB => 0x03 | DIV => 0x04 | SDIV => 0x05 | MOD => 0x06
  | SMOD => 0x07 | ADDMOD => 0x08 | MULMOD => 0x09 | EXP => 0x0a | SIGNEXTEND => 0x0b
  | LT => 0x10 | GT => 0x11 | SLT => 0x12 | SGT => 0x13 | EQ => 0x14 | ISZERO => 0x15
  | AND => 0x16 | OR => 0x17 | XOR => 0x18 | NOT => 0x19 | BYTE => 0x1a | SHL => 0x1b
  | SHR => 0x1c | SAR => 0x1d | CLZ => 0x1e
  end.

(** SIGNEXTEND k x: the low k+1 bytes of x read as a two's complement number. *)
Definition sign_extend (k x : Z) : Z :=
  if 31 <=? k then x
  else let n := 8 * (k + 1) in
       let t := x mod 2 ^ n in
       word (if t <? 2 ^ (n - 1) then t else t - 2 ^ n).

(** BYTE i x: the i-th byte counted from the most significant. *)
Definition byte_of (i x : Z) : Z := if 32 <=? i then 0 else (x / 256 ^ (31 - i)) mod 256.

(** Number of leading zero bits. *)
Definition clz (x : Z) : Z := if x =? 0 then 256 else 255 - Z.log2 x.

(** Result of an instruction, arguments listed from the top of the stack down; [None] for the
    wrong number of arguments. *)
Definition evm_arith (o : aop) (args : list Z) : option Z :=
  match o, args with
  | ADD, [a; b] => Some (word (a + b))
  | MUL, [a; b] => Some (word (a * b))
  | SUB, [a; b] => Some (word (a - b))
  | DIV, [a; b] => Some (if b =? 0 then 0 else a / b)
  | SDIV, [a; b] => Some (if b =? 0 then 0 else word (Z.quot (signed a) (signed b)))
  | MOD, [a; b] => Some (if b =? 0 then 0 else a mod b)
  | SMOD, [a; b] => Some (if b =? 0 then 0 else word (Z.rem (signed a) (signed b)))
  | ADDMOD, [a; b; n] => Some (if n =? 0 then 0 else (a + b) mod n)
  | MULMOD, [a; b; n] => Some (if n =? 0 then 0 else (a * b) mod n)
  | EXP, [a; b] => Some (word (a ^ b))
  | SIGNEXTEND, [k; x] => Some (sign_extend k x)
  | LT, [a; b] => Some (flag (a <? b))
  | GT, [a; b] => Some (flag (b <? a))
  | SLT, [a; b] => Some (flag (signed a <? signed b))
  | SGT, [a; b] => Some (flag (signed b <? signed a))
  | EQ, [a; b] => Some (flag (a =? b))
  | ISZERO, [a] => Some (flag (a =? 0))
  | AND, [a; b] => Some (Z.land a b)
  | OR, [a; b] => Some (Z.lor a b)
  | XOR, [a; b] => Some (Z.lxor a b)
  | NOT, [a] => Some (W - 1 - a)
  | BYTE, [i; x] => Some (byte_of i x)
  | SHL, [s; x] => Some (word (x * 2 ^ s))
  | SHR, [s; x] => Some (x / 2 ^ s)
  | SAR, [s; x] => Some (word (signed x / 2 ^ s))
  | CLZ, [x] => Some (clz x)
  | _, _ => None
  end.
