(** Specification for dead store elimination: what the code generator makes of an instruction of the
    list, and which opcodes may be skipped. *)
From Verif Require Export DseModel VStackSpec.
From Verif Require Import FlowSpec.
Open Scope Z_scope.

(** The opcodes whose only effect is on the stack and whose gas is static, by the EVM's opcode map:
    arithmetic without EXP; comparisons and bitwise operations; the environment and block values
    known when the frame starts, without the ones that look at other accounts, at memory or at
    ancestors (BALANCE, the copies, EXTCODE*, BLOCKHASH, SELFBALANCE); PC; PUSHn. *)
Definition stack_only (op : Z) : Prop :=
  0x01 <= op <= 0x09 \/ op = 0x0b \/ 0x10 <= op <= 0x1e \/ op = 0x30 \/ 0x32 <= op <= 0x36 \/ op = 0x38 \/
  op = 0x3a \/ op = 0x3d \/ 0x41 <= op <= 0x46 \/ 0x48 <= op <= 0x4b \/ op = 0x58 \/ 0x5f <= op <= 0x7f.

(** The stack shuffles, and the other opcodes by how they use the stack. *)
Inductive shape := ShDup (n : nat) | ShSwap (a b : nat) | ShBad | ShCall | ShPop | ShOther.
Definition shape_of (op imm : Z) : shape :=
  if (0x80 <=? op) && (op <=? 0x8f) then ShDup (Z.to_nat (op - 0x7f))
  else if (0x90 <=? op) && (op <=? 0x9f) then ShSwap 0 (Z.to_nat (op - 0x8f))
  else if op =? 0xe6 then match eip_single imm with Some n => ShDup n | None => ShBad end
  else if op =? 0xe7 then match eip_single imm with Some n => ShSwap 0 n | None => ShBad end
  else if op =? 0xe8 then match eip_pair imm with Some (n, m) => ShSwap n m | None => ShBad end
  else if (op =? 0xf0) || (op =? 0xf1) || (op =? 0xf2) || (op =? 0xf4) || (op =? 0xf5) || (op =? 0xfa) then ShCall
  else if op =? 0x50 then ShPop
  else ShOther.

Section Lower.
Context {W : Type}.

Definition always_halts (v : vinst W) : Prop :=
  vi_body v = BHalt /\ exists f, vi_evm v = EOp f /\ forall w args, snd (f w args) = None.

(** [v] is instruction [t] as the code generator sees it (the queries of VStackModel): its arity, its
    flags, the constants its snapshots promise (operands are counted from the end of the snapshot,
    mod.rs:679-683), and a meaning that fits the opcode. The caller resumes a suspended frame with
    one result on top of the stack it was given. *)
Definition meaning_ok (d : idata) (imm : Z) (v : vinst W) : Prop :=
  if f_disabled (d_flags d) || f_unknown (d_flags d) then always_halts v
  else
    match shape_of (d_op d) imm with
    | ShDup n => vi_evm v = EDup n
    | ShSwap a b => vi_evm v = ESwap a b
    | ShBad => always_halts v
    | ShCall => exists f, vi_evm v = ECall f /\
                forall w args rest w' st', f w args rest = (w', Some st') -> length st' = S (length rest)
    | ShPop => vi_body v = BPop /\ exists f, vi_evm v = EOp f
    | ShOther => vi_body v <> BPop /\ exists f, vi_evm v = EOp f /\
        (stack_only (d_op d) -> is_exit (vi_body v) = false /\
           forall w args, length args = vi_in v -> exists outs, f w args = (w, Some outs)) /\
        (is_diverging d = true -> forall w args, snd (f w args) = None)
    end.
Definition snap_const (snap : list aval) (depth : nat) : option Z :=
  match nth_error (rev snap) depth with Some a => as_const a | None => None end.
Definition out_const (o : option aval) : option Z := match o with Some a => as_const a | None => None end.
Definition lowered (t : ditem) (v : vinst W) : Prop :=
  Z.of_nat (vi_in v) = fst (d_io (it_d t)) /\ Z.of_nat (vi_out v) = snd (d_io (it_d t)) /\
  vi_noop v = f_noop (d_flags (it_d t)) /\
  (forall depth, vi_cin v depth = snap_const (it_in t) depth) /\
  vi_cout v = out_const (it_out t) /\
  meaning_ok (it_d t) (it_imm t) v.

(** The same instruction without its no-op mark. *)
Definition unmark (v : vinst W) : vinst W :=
  mkVi (vi_evm v) (vi_body v) (vi_in v) (vi_out v) false (vi_head v) (vi_cin v) (vi_cout v) (vi_fact v).

(** A stack section starts inside a block only right after a call or create, a branch, GAS or SSTORE
    (sections.rs:238). *)
Definition ends_here (d : idata) : bool := may_suspend d || is_branching d || (d_op d =? 0x5a) || (d_op d =? 0x55).
Fixpoint heads_ok (l : list ditem) (vs : list (vinst W)) : Prop :=
  match l, vs with
  | t :: l', v :: ((v' :: _) as vs') => (is_head v' = true -> ends_here (it_d t) = true) /\ heads_ok l' vs'
  | _, _ => True
  end.
End Lower.

(** Before the pass no instruction is marked; the immediates of DUPN, SWAPN, EXCHANGE are bytes; every snapshot covers all operands
    of its instruction or none. The last is what finding F16 is about. *)
Definition aligned (t : ditem) : Prop :=
  it_in t = [] \/ Z.of_nat (length (it_in t)) = fst (d_io (it_d t)).
Definition item_ok (t : ditem) : Prop :=
  f_noop (d_flags (it_d t)) = false /\ (0xe6 <= d_op (it_d t) <= 0xe8 -> 0 <= it_imm t < 256).

(** Arities of the shuffles and of POP (compute_stack_io, opcode.rs:204-213, and revm's table). *)
Definition arity_ok (t : ditem) : Prop :=
  let io := d_io (it_d t) in
  0 <= fst io /\ 0 <= snd io /\
  (f_disabled (d_flags (it_d t)) || f_unknown (d_flags (it_d t)) = false ->
   match shape_of (d_op (it_d t)) (it_imm t) with
   | ShDup n => io = (Z.of_nat n, Z.of_nat n + 1)
   | ShSwap _ b => io = (Z.of_nat b + 1, Z.of_nat b + 1)
   | ShPop => io = (1, 0)
   | _ => True
   end).

(** The stack effect of a block, without saturation: what it takes below its entry height and what it
    adds above it, over all points of the block. *)
Fixpoint deepest (l : list (Z * Z)) (h : Z) : Z :=
  match l with [] => 0 | (i, o) :: l' => Z.max (i - h) (deepest l' (h - i + o)) end.
Fixpoint highest (l : list (Z * Z)) (h : Z) : Z :=
  match l with [] => 0 | (i, o) :: l' => Z.max (h - i + o) (highest l' (h - i + o)) end.
Definition representable (l : list ditem) : Prop :=
  let ios := map (fun t => d_io (it_d t)) l in deepest ios 0 < 2 ^ 16 /\ highest ios 0 < 2 ^ 15.
