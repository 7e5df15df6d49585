(** Model of revmc's opcode iteration, EIP-8024 immediates, constant handles and the parse loop.

    Sources: crates/revmc-codegen/src/bytecode/{opcode,interner,mod}.rs.
    Bytes, opcodes and 256-bit words are [Z]; positions and lengths are [nat]. *)
From Coq Require Export List Arith ZArith Lia Bool.
Export ListNotations.
Open Scope Z_scope.

(** ** Opcode numbers (revm_bytecode::opcode constants used by the modelled code). *)
Definition OP_STOP := 0x00.
Definition OP_JUMPDEST := 0x5b.
Definition OP_PC := 0x58.
Definition OP_PUSH0 := 0x5f.
Definition OP_PUSH1 := 0x60.
Definition OP_PUSH32 := 0x7f.
Definition OP_DUPN := 0xe6.
Definition OP_SWAPN := 0xe7.
Definition OP_EXCHANGE := 0xe8.

(** [min_imm_len], opcode.rs:188-190. The table [OPCODE_INFO] is revm's (external): PUSHn has n
    immediate bytes, DUPN/SWAPN/EXCHANGE one, everything else none. *)
Definition min_imm_len (op : Z) : nat :=
  if (0x60 <=? op) && (op <=? 0x7f) then Z.to_nat (op - 0x5f)
  else if (0xe6 <=? op) && (op <=? 0xe8) then 1%nat
  else 0%nat.

(** Opcode table of a hardfork, info.rs:76-90, reduced to the only bit the iterator reads: an
    opcode is active when it is neither unknown nor disabled (opcode.rs:128). *)
Definition optable := Z -> bool.

(** [Opcode], opcode.rs:157-163. *)
Record opcode := mkOpcode { opc : Z; immediate : option (list Z) }.

(** [slice.get(..len)]: [None] when fewer than [len] elements remain. *)
Definition get_prefix (len : nat) (l : list Z) : option (list Z) :=
  if (len <=? length l)%nat then Some (firstn len l) else None.

(** [OpcodesIter::next], opcode.rs:125-147, on the remaining slice. *)
Definition iter_next (tbl : optable) (rest : list Z) : option (opcode * list Z) :=
  match rest with
  | [] => None
  | op :: rest1 =>
      if tbl op then
        let len := min_imm_len op in
        if (0 <? len)%nat
        then Some (mkOpcode op (get_prefix len rest1), skipn len rest1)
        else Some (mkOpcode op None, rest1)
      else Some (mkOpcode op None, rest1)
  end.

Definition imm_length (o : opcode) : nat :=
  match immediate o with Some i => length i | None => 0%nat end.

(** [OpcodesIterWithPc::next], opcode.rs:34-43. State: remaining slice and pc. *)
Definition iter_next_pc (tbl : optable) (st : list Z * nat) : option ((nat * opcode) * (list Z * nat)) :=
  match iter_next tbl (fst st) with
  | None => None
  | Some (o, rest') =>
      let pc := snd st in
      Some ((pc, o), (rest', (pc + 1 + imm_length o)%nat))
  end.

(** Collecting the iterator, on explicit fuel (one per yielded item); [None] = out of fuel. *)
Fixpoint collect (fuel : nat) (tbl : optable) (st : list Z * nat) : option (list (nat * opcode)) :=
  match iter_next_pc tbl st with
  | None => Some []
  | Some (it, st') =>
      match fuel with
      | O => None
      | S fuel' =>
          match collect fuel' tbl st' with
          | None => None
          | Some its => Some (it :: its)
          end
      end
  end.

(** [OpcodesIter::new(code, spec).with_pc()] collected, opcode.rs:79-89. *)
Definition iterate (tbl : optable) (code : list Z) : option (list (nat * opcode)) :=
  collect (length code) tbl (code, 0%nat).

(** ** EIP-8024 immediates. u8 arithmetic is written as [mod 256]. *)

(** [decode_single], opcode.rs:218-220. *)
Definition decode_single (x : Z) : option Z :=
  if (x <=? 90) || (x >=? 128) then Some ((x + 145) mod 256) else None.

(** [encode_single], opcode.rs:225-228. *)
Definition encode_single (n : Z) : option Z :=
  let x := (n - 145) mod 256 in
  match decode_single x with
  | Some n' => if n' =? n then Some x else None
  | None => None
  end.

(** [decode_pair], opcode.rs:233-241. [29 - q] cannot underflow: q <= 15. *)
Definition decode_pair (x : Z) : option (Z * Z) :=
  if (x >? 81) && (x <? 128) then None
  else
    let k := Z.lxor x 143 in
    let q := k / 16 in
    let r := k mod 16 in
    if q <? r then Some (q + 1, r + 1) else Some (r + 1, 29 - q).

(** [encode_pair], opcode.rs:246-270. *)
Definition try_k (n m q r : Z) : option Z :=
  if (q >=? 16) || (r >=? 16) then None
  else
    let k := q * 16 + r in
    let x := Z.lxor (k mod 256) 143 in
    match decode_pair x with
    | Some (n', m') => if (n' =? n) && (m' =? m) then Some x else None
    | None => None
    end.
Definition encode_pair (n m : Z) : option Z :=
  if (n =? 0) || (m =? 0) then None
  else if n <? m then try_k n m (n - 1) (m - 1)
  else if 29 <? m then None (* 29u8.checked_sub(m) *)
  else try_k n m (29 - m) (n - 1).

(** [compute_stack_io], opcode.rs:204-213; [stack_io] (opcode.rs:194-200) is revm's table, a
    parameter here. Results are u8 and cannot overflow: n <= 235. *)
Definition imm_u8 (immediate : option (list Z)) : Z :=
  match immediate with Some (b :: _) => b | _ => 0 end.
Definition compute_stack_io (stack_io : Z -> Z * Z) (op : Z) (imm : option (list Z)) : Z * Z :=
  if op =? OP_DUPN then
    match decode_single (imm_u8 imm) with Some n => (n, n + 1) | None => (0, 0) end
  else if op =? OP_SWAPN then
    match decode_single (imm_u8 imm) with Some n => (n + 1, n + 1) | None => (0, 0) end
  else if op =? OP_EXCHANGE then
    match decode_pair (imm_u8 imm) with Some (_, m) => (m + 1, m + 1) | None => (0, 0) end
  else stack_io op.

(** ** Constant handles. *)

(** [Interner], interner.rs:8-44: an [IndexSet] is an insertion-ordered list without duplicates;
    [insert_full] returns the index of the existing element or appends. Hashing is not modelled. *)
Definition interner := list Z.
Fixpoint index_of (v : Z) (l : list Z) : option nat :=
  match l with
  | [] => None
  | x :: l' => if x =? v then Some 0%nat else option_map S (index_of v l')
  end.
Definition intern (i : interner) (v : Z) : interner * nat :=
  match index_of v i with
  | Some k => (i, k)
  | None => (i ++ [v], length i)
  end.
Definition interner_get (i : interner) (k : nat) : option Z := nth_error i k.

(** [U256Imm], mod.rs:67-118. The u32 handle is a [Z]; the tag is bit 31. *)
Definition INLINE_TAG := 2 ^ 31.
Definition imm_new (v : Z) (i : interner) : interner * Z :=
  if v <? INLINE_TAG (* u32::try_from(value).is_ok() && x & TAG == 0 *)
  then (i, Z.lor INLINE_TAG v)
  else let '(i', k) := intern i v in (i', Z.of_nat k mod 2 ^ 32).
Definition imm_get (h : Z) (i : interner) : option Z :=
  if Z.land h INLINE_TAG =? 0
  then interner_get i (Z.to_nat h)
  else Some (Z.land h (2 ^ 31 - 1)).

(** ** The parse loop, [Bytecode::new_mono], mod.rs:233-347. *)

(** [U256::from_be_slice]. *)
Definition be_value (l : list Z) : Z := fold_left (fun acc b => acc * 256 + b) l 0.

(** Value of a PUSH/DUPN/SWAPN/EXCHANGE immediate, mod.rs:265-283, reading the code directly. *)
Definition imm_value (code : list Z) (pc : nat) (op : Z) : Z :=
  let imm_len := min_imm_len op in
  let avail := firstn imm_len (skipn (pc + 1) code) in
  if (length avail =? imm_len)%nat then be_value avail
  else match avail with
       | [] => 0
       | _ => be_value (firstn imm_len (avail ++ repeat 0 (32 - length avail)%nat))
       end.

(** The opcodes whose [data] is a constant handle, mod.rs:265. *)
Definition has_imm_data (op : Z) : bool :=
  ((OP_PUSH0 <=? op) && (op <=? OP_PUSH32)) || ((OP_DUPN <=? op) && (op <=? OP_EXCHANGE)).

(** The fields of [InstData] that do not depend on later passes (mod.rs:951-975); [flags] is
    reduced to the single bit "unknown or disabled". *)
Record inst := mkInst { i_pc : nat; i_op : Z; i_active : bool; i_io : Z * Z; i_data : Z }.

(** Parser state: iterator (a position into [code] plus the pc counter of OpcodesIterWithPc),
    emitted instructions, jumpdest pcs, interner. The jumpdest bitset is modelled as a list. *)
Record pstate := mkP { p_pos : nat; p_pc : nat; p_insts : list inst; p_dests : list nat; p_int : interner }.

Definition is_8024 (op : Z) : bool := (OP_DUPN <=? op) && (op <=? OP_EXCHANGE).

(** [immediate == Some(&[op::JUMPDEST])], mod.rs:312. *)
Definition imm_is_jumpdest (o : opcode) : bool :=
  match immediate o with Some [b] => b =? OP_JUMPDEST | _ => false end.

(** One iteration of the [while let] loop, mod.rs:242-317. *)
Definition parse_step (tbl : optable) (stack_io : Z -> Z * Z) (code : list Z) (st : pstate) : option pstate :=
  match iter_next_pc tbl (skipn (p_pos st) code, p_pc st) with
  | None => None
  | Some ((pc, o), (rest', pc')) =>
      let op := opc o in
      let active := tbl op in
      let io := if active then compute_stack_io stack_io op (immediate o) else (0, 0) in
      let '(int', data) :=
        if has_imm_data op then imm_new (imm_value code pc op) (p_int st)
        else (p_int st, if (op =? OP_JUMPDEST) || (op =? OP_PC) then Z.of_nat pc mod 2 ^ 32 else 0) in
      let dests' := if op =? OP_JUMPDEST then p_dests st ++ [pc] else p_dests st in
      let insts' := p_insts st ++ [mkInst pc op active io data] in
      let pos' := (length code - length rest')%nat in
      (* iter.rewind(1), mod.rs:309-316 *)
      if is_8024 op && active && imm_is_jumpdest o
      then Some (mkP (pos' - 1) (pc' - 1) insts' dests' int')
      else Some (mkP pos' pc' insts' dests' int')
  end.

Fixpoint parse_loop (fuel : nat) (tbl : optable) (stack_io : Z -> Z * Z) (code : list Z) (st : pstate)
  : option pstate :=
  match parse_step tbl stack_io code st with
  | None => Some st
  | Some st' =>
      match fuel with
      | O => None
      | S fuel' => parse_loop fuel' tbl stack_io code st'
      end
  end.

(** The loop from its initial state; STOP padding (mod.rs:320-324) is added by the CFG model. *)
Definition parse (tbl : optable) (stack_io : Z -> Z * Z) (code : list Z) : option pstate :=
  parse_loop (length code) tbl stack_io code (mkP 0 0 [] [] []).

(** [is_valid_jump], mod.rs:635-637. *)
Definition is_valid_jump (st : pstate) (pc : nat) : bool :=
  existsb (Nat.eqb pc) (p_dests st).
