(** Model of revmc's constant folding, inline lowering and peephole lowering of arithmetic.

    Sources: crates/revmc-codegen/src/bytecode/passes/const_fold.rs,
    crates/revmc-codegen/src/compiler/translate/{mod,peephole}.rs, crates/revmc-llvm/src/lib.rs.
    256-bit words are [Z] in [0, 2^256). *)
From Verif Require Import ArithSpec.
Open Scope Z_scope.

Definition MAXW : Z := 2 ^ 256 - 1.
Definition INT_MIN : Z := 2 ^ 255. (* peephole.rs:15 *)

(** ** External 256-bit helpers (ruint, revm-interpreter). They are not in /repo; the bodies follow
    those crates' algorithms: sign and magnitude for the signed operations, square-and-multiply for
    [pow], logical shift plus mask for [arithmetic_shr]. *)

Inductive sign := Minus | Zero | Plus.
Definition sign_compl (x : Z) : sign * Z :=
  if x =? 0 then (Zero, 0)
  else if x <? 2 ^ 255 then (Plus, x)
  else (Minus, (2 ^ 256 - x) mod 2 ^ 256).
Definition two_compl (x : Z) : Z := (2 ^ 256 - x) mod 2 ^ 256.
Definition is_minus (s : sign) : bool := match s with Minus => true | _ => false end.
Definition is_zero_sign (s : sign) : bool := match s with Zero => true | _ => false end.

Definition i256_div (a b : Z) : Z :=
  let '(sb, mb) := sign_compl b in
  if is_zero_sign sb then 0
  else
    let '(sa, ma) := sign_compl a in
    if (ma =? 2 ^ 255) && (mb =? 1) then two_compl (2 ^ 255)
    else
      let d := (ma / mb) mod 2 ^ 255 in
      if xorb (is_minus sa) (is_minus sb) then two_compl d else d.

Definition i256_mod (a b : Z) : Z :=
  let '(sa, ma) := sign_compl a in
  if is_zero_sign sa then 0
  else
    let '(sb, mb) := sign_compl b in
    if is_zero_sign sb then 0
    else
      let r := (ma mod mb) mod 2 ^ 255 in
      if is_minus sa then two_compl r else r.

Definition sign_rank (s : sign) : Z := match s with Minus => -1 | Zero => 0 | Plus => 1 end.
Definition i256_cmp (a b : Z) : comparison :=
  let sa := sign_rank (fst (sign_compl a)) in
  let sb := sign_rank (fst (sign_compl b)) in
  match sa ?= sb with
  | Eq => a ?= b
  | c => c
  end.

Fixpoint wpow_pos (base : Z) (e : positive) : Z :=
  match e with
  | xH => base mod 2 ^ 256
  | xO e' => wpow_pos ((base * base) mod 2 ^ 256) e'
  | xI e' => (base * wpow_pos ((base * base) mod 2 ^ 256) e') mod 2 ^ 256
  end.
Definition wpow (base e : Z) : Z :=
  match e with
  | Zpos p => wpow_pos base p
  | _ => 1
  end.

Definition arithmetic_shr (x s : Z) : Z :=
  if Z.testbit x 255 then Z.lor (x / 2 ^ s) ((MAXW * 2 ^ (256 - s)) mod 2 ^ 256) else x / 2 ^ s.

Definition saturating_to_usize (x : Z) : Z := Z.min x (2 ^ 64 - 1).
Definition leading_zeros (x : Z) : Z := 256 - (if x =? 0 then 0 else Z.log2 x + 1).
Definition bool_word (b : bool) : Z := if b then 1 else 0.

(** ** Constant folding, const_fold.rs:55-197. [AbsValue::Const] is [Some v] and any other abstract
    value is [None]; the [U256Imm] handle layer is C04's. Inputs are listed deepest first. *)

Definition all_aops : list aop :=
  [ADD; MUL; SUB; DIV; SDIV; MOD; SMOD; ADDMOD; MULMOD; EXP; SIGNEXTEND; LT; GT; SLT; SGT; EQ;
   ISZERO; AND; OR; XOR; NOT; BYTE; SHL; SHR; SAR; CLZ].
Definition aop_of_code (op : Z) : option aop := find (fun o => aop_code o =? op) all_aops.

(** const_fold.rs:67-79 *)
Definition fold1 (o : aop) (a : Z) : option Z :=
  match o with
  | ISZERO => Some (bool_word (a =? 0))
  | NOT => Some (Z.lxor a MAXW)
  | CLZ => Some (leading_zeros a)
  | _ => None
  end.

(** const_fold.rs:81-172 *)
Definition fold2 (o : aop) (a b : Z) : option Z :=
  match o with
  | ADD => Some ((a + b) mod 2 ^ 256)
  | MUL => Some ((a * b) mod 2 ^ 256)
  | SUB => Some ((a - b) mod 2 ^ 256)
  | DIV => Some (if negb (b =? 0) then a / b else 0)
  | SDIV => Some (i256_div a b)
  | MOD => Some (if negb (b =? 0) then a mod b else 0)
  | SMOD => Some (i256_mod a b)
  | EXP => Some (wpow a b)
  | SIGNEXTEND =>
      Some (if a <? 31 then
              let bit_index := 8 * a + 7 in
              let bit := Z.testbit b bit_index in
              let mask := 2 ^ bit_index - 1 in
              if bit then Z.lor b (Z.lxor mask MAXW) else Z.land b mask
            else b)
  | LT => Some (bool_word (a <? b))
  | GT => Some (bool_word (a >? b))
  | SLT => Some (bool_word (match i256_cmp a b with Lt => true | _ => false end))
  | SGT => Some (bool_word (match i256_cmp a b with Gt => true | _ => false end))
  | EQ => Some (bool_word (a =? b))
  | AND => Some (Z.land a b)
  | OR => Some (Z.lor a b)
  | XOR => Some (Z.lxor a b)
  | BYTE =>
      let i := saturating_to_usize a in
      (* [U256::byte(k)] is the k-th byte from the least significant *)
      Some (if i <? 32 then Z.land (Z.shiftr b (8 * (31 - i))) 255 else 0)
  | SHL =>
      let shift := saturating_to_usize a in
      Some (if shift <? 256 then (Z.shiftl b shift) mod 2 ^ 256 else 0)
  | SHR =>
      let shift := saturating_to_usize a in
      Some (if shift <? 256 then Z.shiftr b shift else 0)
  | SAR =>
      let shift := saturating_to_usize a in
      Some (if shift <? 256 then arithmetic_shr b shift
            else if Z.testbit b 255 then MAXW else 0)
  | _ => None
  end.

(** const_fold.rs:174-187; [add_mod]/[mul_mod] of ruint return 0 for modulus 0. *)
Definition fold3 (o : aop) (a b n : Z) : option Z :=
  match o with
  | ADDMOD => Some (if n =? 0 then 0 else (a + b) mod n)
  | MULMOD => Some (if n =? 0 then 0 else (a * b) mod n)
  | _ => None
  end.

Definition OP_CODESIZE := 0x38.
Definition OP_PC' := 0x58.

(** [try_const_fold], const_fold.rs:55-197. *)
Definition try_const_fold (op pc code_len : Z) (inputs : list (option Z)) : option Z :=
  if op =? OP_CODESIZE then Some code_len
  else if op =? OP_PC' then Some pc
  else match aop_of_code op with
       | None => None
       | Some o =>
           match o, inputs with
           | (ISZERO | NOT | CLZ), [Some a] => fold1 o a
           | (ADDMOD | MULMOD), [Some n; Some b; Some a] => fold3 o a b n
           | (ISZERO | NOT | CLZ | ADDMOD | MULMOD), _ => None
           | _, [Some b; Some a] => fold2 o a b
           | _, _ => None
           end
       end.

(** [const_fold_gas], const_fold.rs:19-50. *)
Definition const_fold_gas (op : Z) (inputs : list (option Z)) : option Z :=
  if (op =? OP_CODESIZE) || (op =? OP_PC') then Some 2
  else match aop_of_code op with
       | None => None
       | Some o =>
           match o with
           | ISZERO | NOT | CLZ | ADD | SUB => Some 3
           | MUL | DIV | SDIV | MOD | SMOD => Some 5
           | ADDMOD | MULMOD => Some 8
           | SIGNEXTEND => Some 5
           | LT | GT | SLT | SGT | EQ | AND | OR | XOR | BYTE | SHL | SHR | SAR => Some 3
           | EXP => match inputs with
                    | Some v :: _ => Some (10 + 50 * ((256 - leading_zeros v + 7) / 8))
                    | _ => None
                    end
           end
       end.

(** ** LLVM integer expressions built by code generation. [Poison] is an undefined value that may
    be discarded by [select]; [UB] is immediate undefined behaviour and may not be evaluated at all.
    Operation names follow revmc-llvm/src/lib.rs:1523-1790. *)
Inductive ibin := IAdd | ISub | IMul | IUdiv | IUrem | IShl | IUshr | ISshr | IAnd | IOr | IXor.
Inductive icc := CEq | CUlt | CUgt | CSlt | CSgt.
Inductive iexpr :=
| IArg (k : nat)               (* k-th popped stack word, 0 = top *)
| IConst (z : Z)
| IBin (o : ibin) (a b : iexpr)
| INot (a : iexpr)
| IClz (a : iexpr)
| IIcmp (c : icc) (a b : iexpr) (* i1, zero-extended by [zext] *)
| ISelect (c a b : iexpr).

Inductive ival := UB | Poison | Val (z : Z).

(** LangRef: shifts by >= 256 are poison, division by zero is UB; add/sub/mul wrap (no nuw/nsw). *)
Definition bin_eval (o : ibin) (a b : Z) : ival :=
  match o with
  | IAdd => Val ((a + b) mod 2 ^ 256)
  | ISub => Val ((a - b) mod 2 ^ 256)
  | IMul => Val ((a * b) mod 2 ^ 256)
  | IUdiv => if b =? 0 then UB else Val (a / b)
  | IUrem => if b =? 0 then UB else Val (a mod b)
  | IShl => if b >=? 256 then Poison else Val ((a * 2 ^ b) mod 2 ^ 256)
  | IUshr => if b >=? 256 then Poison else Val (a / 2 ^ b)
  | ISshr => if b >=? 256 then Poison else Val ((signed a / 2 ^ b) mod 2 ^ 256)
  | IAnd => Val (Z.land a b)
  | IOr => Val (Z.lor a b)
  | IXor => Val (Z.lxor a b)
  end.
Definition cmp_eval (c : icc) (a b : Z) : bool :=
  match c with
  | CEq => a =? b
  | CUlt => a <? b
  | CUgt => a >? b
  | CSlt => signed a <? signed b
  | CSgt => signed a >? signed b
  end.

Definition lift2 (f : Z -> Z -> ival) (a b : ival) : ival :=
  match a, b with
  | UB, _ | _, UB => UB
  | Poison, _ | _, Poison => Poison
  | Val x, Val y => f x y
  end.
Definition lift1 (f : Z -> ival) (a : ival) : ival :=
  match a with UB => UB | Poison => Poison | Val x => f x end.

(** Division by a poison divisor is UB; [lift2] would only make it poison, so it is special. *)
Definition divides (o : ibin) : bool := match o with IUdiv | IUrem => true | _ => false end.

Fixpoint ieval (args : list Z) (e : iexpr) : ival :=
  match e with
  | IArg k => match nth_error args k with Some v => Val v | None => UB end
  | IConst z => Val z
  | IBin o a b =>
      match ieval args b with
      | Poison => if divides o then UB else lift2 (bin_eval o) (ieval args a) Poison
      | vb => lift2 (bin_eval o) (ieval args a) vb
      end
  | INot a => lift1 (fun x => Val (Z.lxor x MAXW)) (ieval args a)
  | IClz a => lift1 (fun x => Val (leading_zeros x)) (ieval args a)
  | IIcmp c a b => lift2 (fun x y => Val (bool_word (cmp_eval c x y))) (ieval args a) (ieval args b)
  | ISelect c a b =>
      match ieval args c, ieval args a, ieval args b with
      | UB, _, _ | _, UB, _ | _, _, UB => UB
      | Poison, _, _ => Poison
      | Val x, va, vb => if x =? 0 then vb else va
      end
  end.

(** Inline lowering in [translate_inst], translate/mod.rs:661-683 (macros) and 717-821. [None]: not
    lowered inline (a builtin is called). [popn] returns the top of the stack first. *)
Definition shift_lowering (o : ibin) (default : iexpr) : iexpr :=
  ISelect (IIcmp CUgt (IArg 0) (IConst 255)) default (IBin o (IArg 1) (IArg 0)).

Definition translate_inline (o : aop) : option iexpr :=
  match o with
  | ADD => Some (IBin IAdd (IArg 0) (IArg 1))
  | MUL => Some (IBin IMul (IArg 0) (IArg 1))
  | SUB => Some (IBin ISub (IArg 0) (IArg 1))
  | SIGNEXTEND =>
      let ext := IArg 0 in let x := IArg 1 in
      let might := IIcmp CUlt ext (IConst 31) in
      let shift := IBin ISub (IConst 248) (IBin IMul ext (IConst 8)) in
      Some (ISelect might (IBin ISshr (IBin IShl x shift) shift) x)
  | LT => Some (IIcmp CUlt (IArg 0) (IArg 1))
  | GT => Some (IIcmp CUgt (IArg 0) (IArg 1))
  | SLT => Some (IIcmp CSlt (IArg 0) (IArg 1))
  | SGT => Some (IIcmp CSgt (IArg 0) (IArg 1))
  | EQ => Some (IIcmp CEq (IArg 0) (IArg 1))
  | ISZERO => Some (IIcmp CEq (IArg 0) (IConst 0))
  | AND => Some (IBin IAnd (IArg 0) (IArg 1))
  | OR => Some (IBin IOr (IArg 0) (IArg 1))
  | XOR => Some (IBin IXor (IArg 0) (IArg 1))
  | NOT => Some (INot (IArg 0))
  | BYTE =>
      let index := IArg 0 in let value := IArg 1 in
      let in_range := IIcmp CUlt index (IConst 32) in
      let shift := IBin ISub (IConst 248) (IBin IMul index (IConst 8)) in
      Some (ISelect in_range (IBin IAnd (IBin IUshr value shift) (IConst 255)) (IConst 0))
  | SHL => Some (shift_lowering IShl (IConst 0))
  | SHR => Some (shift_lowering IUshr (IConst 0))
  | SAR => Some (shift_lowering ISshr
                   (ISelect (IIcmp CSlt (IArg 1) (IConst 0)) (IConst MAXW) (IConst 0)))
  | CLZ => Some (IClz (IArg 0))
  | DIV | SDIV | MOD | SMOD | ADDMOD | MULMOD | EXP => None
  end.

(** ** Builtins called for the remaining operations, revmc-builtins/src/lib.rs:124-167; arguments
    are read through pointers, top of the stack first. *)
Definition builtin_arith (o : aop) (args : list Z) : option Z :=
  match o, args with
  | DIV, [a; b] => Some (if negb (b =? 0) then a / b else 0)
  | SDIV, [a; b] => Some (i256_div a b)
  | MOD, [a; b] => Some (if negb (b =? 0) then a mod b else 0)
  | SMOD, [a; b] => Some (i256_mod a b)
  | ADDMOD, [a; b; n] => Some (if n =? 0 then 0 else (a + b) mod n)
  | MULMOD, [a; b; n] => Some (if n =? 0 then 0 else (a * b) mod n)
  | EXP, [a; b] => Some (wpow a b)
  | _, _ => None
  end.

(** ** Peephole lowering, peephole.rs:46-278. [consts] are the known operand values, top first.
    The result is the expression pushed and whether [ExpGas] is called first. *)
Definition is_pow2 (x : Z) : bool := (0 <? x) && (2 ^ Z.log2 x =? x).
Definition is_c (c : option Z) (v : Z) : bool := match c with Some x => x =? v | None => false end.
Definition fold_const (v : Z) : option (iexpr * bool) := Some (IConst v, false).
Definition pushes (e : iexpr) : option (iexpr * bool) := Some (e, false).

(** peephole.rs:46-71 *)
Definition peephole_div (dividend divisor : option Z) : option (iexpr * bool) :=
  if is_c divisor 0 then fold_const 0
  else if is_c divisor 1 then pushes (IArg 0)
  else match divisor with
       | Some d => if is_pow2 d then pushes (IBin IUdiv (IArg 0) (IConst d))
                   else if is_c dividend 0 then fold_const 0 else None
       | None => if is_c dividend 0 then fold_const 0 else None
       end.
(** peephole.rs:74-106 *)
Definition peephole_sdiv (dividend divisor : option Z) : option (iexpr * bool) :=
  if is_c divisor 0 then fold_const 0
  else if is_c divisor 1 then pushes (IArg 0)
  else if is_c divisor MAXW then pushes (IBin ISub (IConst 0) (IArg 0))
  else if is_c divisor INT_MIN then pushes (IIcmp CEq (IArg 0) (IConst INT_MIN))
  else if is_c dividend 0 then fold_const 0 else None.
(** peephole.rs:111-128 *)
Definition peephole_mod (dividend modulus : option Z) : option (iexpr * bool) :=
  if is_c modulus 0 || is_c modulus 1 then fold_const 0
  else match modulus with
       | Some m => if is_pow2 m then pushes (IBin IUrem (IArg 0) (IConst m))
                   else if is_c dividend 0 then fold_const 0 else None
       | None => if is_c dividend 0 then fold_const 0 else None
       end.
(** peephole.rs:131-142 *)
Definition peephole_smod (dividend modulus : option Z) : option (iexpr * bool) :=
  if is_c modulus 0 || is_c modulus 1 || is_c modulus MAXW then fold_const 0
  else if is_c dividend 0 then fold_const 0 else None.
(** peephole.rs:144-156 *)
Definition peephole_addmod (a b modulus : option Z) : option (iexpr * bool) :=
  if is_c modulus 0 || is_c modulus 1 then fold_const 0
  else if is_c a 0 && is_c b 0 then fold_const 0 else None.
(** peephole.rs:159-176 *)
Definition peephole_mulmod (a b modulus : option Z) : option (iexpr * bool) :=
  if is_c modulus 0 || is_c modulus 1 then fold_const 0
  else if is_c a 0 || is_c b 0 then fold_const 0 else None.
(** peephole.rs:182-248. [trailing_zeros] of a power of two is its logarithm. *)
Definition peephole_exp (base exponent : option Z) : option (iexpr * bool) :=
  match exponent with
  | Some e =>
      if e =? 0 then fold_const 1
      else if e =? 1 then pushes (IArg 0)
      else if e =? 2 then pushes (IBin IMul (IArg 0) (IArg 0))
      else None
  | None =>
      match base with
      | None => None
      | Some b =>
          if b =? 0 then
            Some (ISelect (IIcmp CEq (IArg 1) (IConst 0)) (IConst 1) (IConst 0), true)
          else if b =? 1 then Some (IConst 1, true)
          else if b =? MAXW then
            Some (ISelect (IIcmp CEq (IBin IAnd (IArg 1) (IConst 1)) (IConst 0)) (IConst 1) (IConst MAXW), true)
          else if is_pow2 b then
            let k := Z.log2 b in
            let threshold := (256 + k - 1) / k in
            let shift := if k =? 1 then IArg 1 else IBin IMul (IArg 1) (IConst k) in
            Some (ISelect (IIcmp CUlt (IArg 1) (IConst threshold)) (IBin IShl (IConst 1) shift) (IConst 0), true)
          else None
      end
  end.
(** peephole.rs:256-268 *)
Definition peephole_signextend (ext : option Z) : option (iexpr * bool) :=
  match ext with
  | Some e => if e >=? 31 then pushes (IArg 1) else None
  | None => None
  end.
(** peephole.rs:270-278 *)
Definition peephole_byte (index : option Z) : option (iexpr * bool) :=
  match index with
  | Some i => if i >=? 32 then fold_const 0 else None
  | None => None
  end.

(** [try_peephole] restricted to pure operations, peephole.rs:22-41. *)
Definition try_peephole (o : aop) (consts : list (option Z)) : option (iexpr * bool) :=
  match o, consts with
  | DIV, [a; b] => peephole_div a b
  | SDIV, [a; b] => peephole_sdiv a b
  | MOD, [a; b] => peephole_mod a b
  | SMOD, [a; b] => peephole_smod a b
  | ADDMOD, [a; b; n] => peephole_addmod a b n
  | MULMOD, [a; b; n] => peephole_mulmod a b n
  | EXP, [a; b] => peephole_exp a b
  | SIGNEXTEND, [a; _] => peephole_signextend a
  | BYTE, [a; _] => peephole_byte a
  | _, _ => None
  end.

(** ** The whole lowering of a pure instruction, translate/mod.rs:629-821: constant output, then
    peephole, then inline code, then builtin. The result is a value ([UB]/[Poison] if undefined). *)
Definition translate_arith (o : aop) (const_out : option Z) (consts : list (option Z)) (args : list Z) : ival :=
  match const_out with
  | Some c => Val c
  | None =>
      match try_peephole o consts with
      | Some (e, _) => ieval args e
      | None =>
          match translate_inline o with
          | Some e => ieval args e
          | None => match builtin_arith o args with Some v => Val v | None => UB end
          end
      end
  end.

(** ** Gas of EXP. [exp_cost] is revm's [GasParams::exp_cost], any function of the exponent. *)

(** Extra static gas, sections.rs:228-236. *)
Definition exp_static_gas (exp_cost : Z -> Z) (const_exponent const_out : option Z) : Z :=
  match const_exponent with
  | Some e =>
      if (match const_out with Some _ => true | None => false end) || (e <=? 2)
      then exp_cost e else 0
  | None => 0
  end.
(** Gas charged when the instruction runs: nothing for a constant output; [ExpGas] or nothing for
    a peephole (peephole.rs:180-254); builtin Exp otherwise (revmc-builtins/src/lib.rs:157-176). *)
Definition exp_dynamic_gas (exp_cost : Z -> Z) (const_base const_exponent const_out : option Z) (exponent : Z) : Z :=
  match const_out with
  | Some _ => 0
  | None =>
      match peephole_exp const_base const_exponent with
      | Some (_, pays) => if pays then exp_cost exponent else 0
      | None => exp_cost exponent
      end
  end.
