(** Model of the declarations of the builtins: the LLVM attributes given to each builtin and its parameters,
    and the memory each builtin touches.

    Sources: crates/revmc-builtins/src/{ir,lib,utils,macros}.rs. Not modelled: [Align], [Cold], the calling
    convention and the addresses. *)
From Coq Require Export List Arith ZArith Lia Bool.
Export ListNotations.
Open Scope Z_scope.

(** [Builtin], ir.rs:120-124 and 273-322. *)
Inductive builtin :=
| Panic | AssertSpecId | Div | SDiv | Mod | SMod | AddMod | MulMod | Exp | ExpGas | Keccak256 | Keccak256CC | Balance
| Origin | CallDataLoad | CallDataLoadC | CallDataCopy | CodeCopy | GasPrice | ExtCodeSize | ExtCodeCopy
| ReturnDataCopy | ExtCodeHash | BlockHash | Coinbase | Timestamp | Number | Difficulty | GasLimit | ChainId
| SelfBalance | Basefee | BlobHash | BlobBaseFee | SlotNum | Mresize | Sload | SloadC | Sstore | Tload | Tstore
| Mcopy | Log | Create | Call | DoReturn | DoReturnCC | SelfDestruct.
(** [Builtin::ALL], ir.rs:129. *)
Definition all_builtins : list builtin :=
  [Panic; AssertSpecId; Div; SDiv; Mod; SMod; AddMod; MulMod; Exp; ExpGas; Keccak256; Keccak256CC; Balance;
   Origin; CallDataLoad; CallDataLoadC; CallDataCopy; CodeCopy; GasPrice; ExtCodeSize; ExtCodeCopy;
   ReturnDataCopy; ExtCodeHash; BlockHash; Coinbase; Timestamp; Number; Difficulty; GasLimit; ChainId;
   SelfBalance; Basefee; BlobHash; BlobBaseFee; SlotNum; Mresize; Sload; SloadC; Sstore; Tload; Tstore;
   Mcopy; Log; Create; Call; DoReturn; DoReturnCC; SelfDestruct].

(** [Attribute], revmc-backend/src/traits.rs:120-160, those used here. *)
Inductive attr :=
| ANoReturn | ANoFree | ANoRecurse | ANoSync | ANoUnwind | AArgMemOnly
| ANoAlias | ANoCapture | ANoUndef | ADeref (n : Z) | AReadNone | AReadOnly | AWriteOnly | AWritable | AInit (n : Z).
Definition attr_eqb (a b : attr) : bool :=
  match a, b with
  | ANoReturn, ANoReturn | ANoFree, ANoFree | ANoRecurse, ANoRecurse | ANoSync, ANoSync | ANoUnwind, ANoUnwind
  | AArgMemOnly, AArgMemOnly | ANoAlias, ANoAlias | ANoCapture, ANoCapture | ANoUndef, ANoUndef
  | AReadNone, AReadNone | AReadOnly, AReadOnly | AWriteOnly, AWriteOnly | AWritable, AWritable => true
  | ADeref n, ADeref m | AInit n, AInit m => n =? m
  | _, _ => false
  end.

(** [Builtin::op], ir.rs:184-210: the opcode of the same name, or one with the same stack effect. *)
Definition bop (b : builtin) : Z :=
  let _0_0 := 0x00 (* STOP *) in let _0_1 := 0x5f (* PUSH0 *) in let _1_0 := 0x50 (* POP *) in
  match b with
  | Panic => _0_0 | AssertSpecId => _0_0 | Div => 0x04 | SDiv => 0x05 | Mod => 0x06 | SMod => 0x07 | AddMod => 0x08
  | MulMod => 0x09 | Exp => 0x0a | ExpGas => _1_0 | Keccak256 => 0x20 | Keccak256CC => _0_1 | Balance => 0x31
  | Origin => 0x32 | CallDataLoad => 0x35 | CallDataLoadC => _0_1 | CallDataCopy => 0x37 | CodeCopy => 0x39
  | GasPrice => 0x3a | ExtCodeSize => 0x3b | ExtCodeCopy => 0x3c | ReturnDataCopy => 0x3e | ExtCodeHash => 0x3f
  | BlockHash => 0x40 | Coinbase => 0x41 | Timestamp => 0x42 | Number => 0x43 | Difficulty => 0x44 | GasLimit => 0x45
  | ChainId => 0x46 | SelfBalance => 0x47 | Basefee => 0x48 | BlobHash => 0x49 | BlobBaseFee => 0x4a | SlotNum => 0x4b
  | Mresize => _0_0 | Sload => 0x54 | SloadC => _0_1 | Sstore => 0x55 | Tload => 0x5c | Tstore => 0x5d | Mcopy => 0x5e
  | Log => _0_0 | Create => 0xf0 | Call => 0xf1 | DoReturn => 0xf3 | DoReturnCC => _0_0 | SelfDestruct => 0xff
  end.
(** [OPCODE_INFO] (revm, external): stack inputs and outputs of these opcodes. *)
Definition opcode_io (op : Z) : option (nat * nat) :=
  match op with
  | 0x00 => Some (0, 0)%nat | 0x50 => Some (1, 0)%nat | 0x5f => Some (0, 1)%nat
  | 0x04 | 0x05 | 0x06 | 0x07 | 0x0a | 0x20 => Some (2, 1)%nat
  | 0x08 | 0x09 => Some (3, 1)%nat
  | 0x31 | 0x35 | 0x3b | 0x3f | 0x40 | 0x49 | 0x54 | 0x5c => Some (1, 1)%nat
  | 0x32 | 0x3a | 0x41 | 0x42 | 0x43 | 0x44 | 0x45 | 0x46 | 0x47 | 0x48 | 0x4a | 0x4b => Some (0, 1)%nat
  | 0x37 | 0x39 | 0x3e | 0x5e => Some (3, 0)%nat
  | 0x3c => Some (4, 0)%nat
  | 0x55 | 0x5d | 0xf3 => Some (2, 0)%nat
  | 0xff => Some (1, 0)%nat
  | 0xf0 => Some (3, 1)%nat | 0xf1 => Some (7, 1)%nat
  | _ => None
  end.

(** The parameters as declared, ir.rs:273-322: a pointer to the context, writable or not ([ecx], [ecx_ro]); the
    stack pointer ([sp], [sp_dyn]); another pointer, a pointer-sized integer, a byte (default attributes). *)
Inductive pkind := KEcx | KEcxRo | KSp | KSpDyn | KPtr | KUsize | KU8.
Definition params (b : builtin) : list pkind :=
  match b with
  | Panic => [KPtr; KUsize]
  | AssertSpecId => [KEcx; KU8]
  | Div | SDiv | Mod | SMod | AddMod | MulMod => [KSp]
  | Exp | ExpGas | Keccak256 | Balance | CallDataCopy | CodeCopy | ExtCodeSize | ExtCodeCopy | ReturnDataCopy
  | ExtCodeHash | BlockHash | SelfBalance | Sload | Sstore | Tload | Tstore | Mcopy | SelfDestruct => [KEcx; KSp]
  | Origin | CallDataLoad | GasPrice | Coinbase | Timestamp | Number | Difficulty | GasLimit | ChainId | Basefee
  | BlobHash | BlobBaseFee | SlotNum => [KEcxRo; KSp]
  | Keccak256CC => [KEcx; KSp; KUsize; KUsize]
  | CallDataLoadC => [KEcxRo; KSp; KUsize]
  | Mresize => [KEcx; KUsize]
  | SloadC => [KEcx; KSp; KUsize]
  | Log | Create | Call => [KEcx; KSpDyn; KU8]
  | DoReturn => [KEcx; KSp; KU8]
  | DoReturnCC => [KEcx; KUsize; KUsize; KU8]
  end.

(** [size_and_align_with], ir.rs:227-237. *)
Definition size_attrs (size : option Z) : list attr :=
  [ANoAlias; ANoCapture; ANoUndef] ++ match size with Some s => [ADeref s] | None => [] end.
Definition SIZE_OF_WORD : Z := 32.
(** [sp], ir.rs:239-271. *)
Definition sp_attrs (b : builtin) : list attr :=
  let (inputs, outputs) := match opcode_io (bop b) with Some io => io | None => (0, 0)%nat end in
  let n_stack_words := Nat.max inputs outputs in
  size_attrs None ++ [ADeref (SIZE_OF_WORD * Z.of_nat n_stack_words)] ++
  match inputs, outputs with
  | O, O => [AReadNone]
  | O, S _ => [AWritable; AWriteOnly; AInit (SIZE_OF_WORD * Z.of_nat outputs)]
  | S _, O => [AReadOnly]
  | S _, S _ => [AWritable]
  end.
(** [Builtin::param_attrs], ir.rs:173-182 and 222-271. [ctx_size] is [size_of::<EvmContext>()]. *)
Definition attrs_of (ctx_size : Z) (b : builtin) (k : pkind) : list attr :=
  match k with
  | KEcx => size_attrs (Some ctx_size) ++ [AWritable]
  | KEcxRo => size_attrs (Some ctx_size) ++ [AReadOnly]
  | KSp => sp_attrs b
  | KSpDyn => size_attrs None ++ [AWritable]
  | KPtr | KUsize | KU8 => [ANoUndef]
  end.
Definition param_attrs (ctx_size : Z) (b : builtin) : list (list attr) := map (attrs_of ctx_size b) (params b).
(** [Builtin::attrs], ir.rs:164-170. *)
Definition own_attrs (b : builtin) : list attr :=
  match b with Panic | DoReturn | DoReturnCC | SelfDestruct => [ANoReturn] | _ => [] end.
(** [Builtins::add_attrs], ir.rs:69-106: the function attributes. *)
Definition fn_attrs (ctx_size : Z) (b : builtin) : list attr :=
  let writes_ecx := existsb (fun p => existsb (attr_eqb AWritable) p && existsb (attr_eqb (ADeref ctx_size)) p)
                            (param_attrs ctx_size b) in
  own_attrs b ++ [ANoFree; ANoRecurse; ANoSync; ANoUnwind] ++ (if writes_ecx then [] else [AArgMemOnly]).

(** The parameters of the functions, lib.rs: references to the context, references to an array of words, and
    the raw pointer and the scalars of ir.rs ([SpecId], [CallKind], [CreateKind] and [InstructionResult] are
    bytes, lib.rs:39 and 64; [u64] is pointer-sized on the supported targets). *)
Inductive rparam := RCtxMut | RCtx | RWords (n : nat) (mut : bool) | RRawWords | RBytes | RU64 | RByte.
Definition signature (b : builtin) : list rparam :=
  match b with
  | Panic => [RBytes; RU64]                                                            (* lib.rs:112 *)
  | AssertSpecId => [RCtx; RByte]                                                      (* lib.rs:118 *)
  | Div | SDiv | Mod | SMod => [RWords 2 true]                                         (* lib.rs:126-143 *)
  | AddMod | MulMod => [RWords 3 true]                                                 (* lib.rs:148-153 *)
  | Exp | Keccak256 => [RCtxMut; RWords 2 true]                                        (* lib.rs:158-161, 179-182 *)
  | ExpGas => [RCtxMut; RWords 1 false]                                                (* lib.rs:170-173 *)
  | Keccak256CC => [RCtxMut; RWords 1 true; RU64; RU64]                                (* lib.rs:189-194 *)
  | Balance | ExtCodeSize | ExtCodeHash | BlockHash | SelfBalance | Sload | Tload
  | SelfDestruct => [RCtxMut; RWords 1 true]                                           (* lib.rs:217-869 *)
  | Origin | CallDataLoad | GasPrice | Coinbase | Timestamp | Number | Difficulty | GasLimit | ChainId | Basefee
  | BlobHash | BlobBaseFee | SlotNum => [RCtx; RWords 1 true]                          (* lib.rs:228-482 *)
  | CallDataLoadC => [RCtx; RWords 1 true; RU64]                                       (* lib.rs:241-245 *)
  | CallDataCopy | CodeCopy | ReturnDataCopy | Mcopy => [RCtxMut; RWords 3 true]       (* lib.rs:268-593 *)
  | ExtCodeCopy => [RCtxMut; RWords 4 true]                                            (* lib.rs:318-321 *)
  | Mresize => [RCtxMut; RU64]                                                         (* lib.rs:475 *)
  | SloadC => [RCtxMut; RWords 1 true; RU64]                                           (* lib.rs:508-512 *)
  | Sstore | Tstore => [RCtxMut; RWords 2 true]                                        (* lib.rs:519-522, 567-570 *)
  | Log | Create | Call => [RCtxMut; RRawWords; RByte]                                 (* lib.rs:595-704 *)
  | DoReturn => [RCtxMut; RWords 2 true; RByte]                                        (* lib.rs:826-830 *)
  | DoReturnCC => [RCtxMut; RU64; RU64; RByte]                                         (* lib.rs:846-851 *)
  end.

(** ** What the bodies touch.

    A body is a tree of memory accesses. [Rd], [Wr]: word [k] behind the stack pointer. [Own]: a field of
    [EvmContext]; [Far]: memory behind a pointer loaded from it ([host], [memory], [input], [gas_params], ..,
    revmc-context/src/lib.rs:86-129) or global memory; [true] when it may be written; both hand back an
    arbitrary value. [Grow]: the shared memory is resized; the answer is 0 when that fails, 1 when it stays
    where it is, and otherwise the buffer has been reallocated. [Exit] leaves without returning to the caller. *)
Inductive prog :=
| Ret
| Exit
| Rd (k : nat) (f : Z -> prog)
| Wr (k : nat) (v : Z) (p : prog)
| Own (w : bool) (f : Z -> prog)
| Far (w : bool) (f : Z -> prog)
| Grow (f : Z -> prog).

(** [fail], lib.rs:76-79: sets [exit_result] and leaves. *)
Definition fail : prog := Own true (fun _ => Exit).
(** [gas!], macros.rs:2-9: [c] is read from the gas parameters. *)
Definition gas (p : prog) : prog := Far false (fun c => Own true (fun g => if g <? c then fail else p)).
(** [state_gas!], macros.rs:12-19. *)
Definition state_gas (p : prog) : prog := Far false (fun c => Own true (fun g => if g <? c then fail else p)).
(** [ensure_non_staticcall!], macros.rs:22-29. *)
Definition non_static (p : prog) : prog := Own false (fun s => if s =? 0 then p else fail).
(** [try_into_usize!], macros.rs:49-61. *)
Definition usize (v : Z) (f : Z -> prog) : prog := if v <? 2 ^ 64 then f v else fail.
(** [ensure_memory], utils.rs:84-94: charges the gas, resizes, refreshes the cached base. *)
Definition ensure_memory (p : prog) : prog :=
  Far false (fun _ => Own true (fun _ => Grow (fun r => if r =? 0 then fail else Own true (fun _ => p)))).
(** A host call that may fail, [?] or [ok_or_fatal()?]. *)
Definition host_call (f : Z -> prog) : prog := Own false (fun _ => Far true (fun r => if r <? 0 then fail else f r)).
(** [load_account], utils.rs:56-68. *)
Definition load_account (f : Z -> prog) : prog :=
  Far false (fun _ => Own false (fun _ => host_call (fun r => Own false (fun cold => if cold =? 0 then f r else gas (f r))))).
(** Reading or writing the memory of the frame. *)
Definition mem_rd (p : prog) : prog := Own false (fun _ => Far false (fun _ => p)).
Definition mem_wr (p : prog) : prog := Own false (fun _ => Far true (fun _ => p)).
(** [*slot = ecx.host.…()], on a shared reference to the context. *)
Definition host_ro (f : Z -> prog) : prog := Own false (fun _ => Far false f).

Section Bodies.
  (** The values computed from what was read; their meaning is the subject of other properties (C21, C36, C49). *)
  Context (val : list Z -> Z).

  (** [do_keccak256], lib.rs:198-214. *)
  Definition do_keccak256 (out : nat) (offset len : Z) : prog :=
    if len =? 0 then Wr out (val []) Ret
    else gas (usize offset (fun offset => ensure_memory (mem_rd (Wr out (val [offset; len]) Ret)))).
  (** [do_calldataload], lib.rs:249-266. *)
  Definition do_calldataload (offset : Z) : prog :=
    Own false (fun _ => Far false (fun input_len =>
      if offset <? input_len then Own false (fun _ => Far false (fun v => Wr 0 (val [v]) Ret)) else Wr 0 0 Ret)).
  (** [copy_operation], utils.rs:96-111, the source being given by a pointer. *)
  Definition copy_operation : prog :=
    Rd 0 (fun len => usize len (fun len =>
      if len =? 0 then Ret
      else gas (Rd 2 (fun memory_offset => usize memory_offset (fun _ => ensure_memory (Rd 1 (fun _ => mem_wr Ret))))))).
  (** SLOAD, lib.rs:485-505. *)
  Definition do_sload : prog :=
    Own false (fun _ => Far false (fun _ => Rd 0 (fun _ => Own false (fun berlin =>
      if berlin =? 0 then host_call (fun v => Wr 0 v Ret)
      else Far false (fun _ => Own false (fun _ => host_call (fun v =>
             Own false (fun cold => if cold =? 0 then Wr 0 v Ret else gas (Wr 0 v Ret))))))))).
  (** The end of RETURN and REVERT, lib.rs:832-843: the output is copied, [next_action] set, then an error. *)
  Definition do_return (offset : (Z -> prog) -> prog) (len : Z) : prog :=
    let finish := Own true (fun _ => Far true (fun _ => fail)) in
    if len =? 0 then finish else offset (fun _ => ensure_memory (mem_rd finish)).
  (** The loop over the topics, lib.rs:611-614: [sp.sub(i).read()] for [i] in [1..=n], [sp] being [n] words up. *)
  Fixpoint topics (n : nat) (left : nat) (p : prog) : prog :=
    match left with O => p | S left' => Rd (n - (n - left')) (fun _ => topics n left' p) end.

  (** The bodies, lib.rs, with the lines; [x], [y] are the scalar arguments in order. The words of
      [rev![a, b]] are numbered from the last name. *)
  Definition body (b : builtin) (x y : Z) : prog :=
    match b with
    | Panic => Far true (fun _ => Exit)  (* 112-115; reading the message, an argument, is left out; the panic machinery is global *)
    | AssertSpecId => Own false (fun s => if s =? x then Ret else Far true (fun _ => Exit))  (* 118-123 *)
    | Div | Mod => Rd 0 (fun b => if b =? 0 then Wr 0 0 Ret else Rd 1 (fun a => Wr 0 (val [a; b]) Ret))  (* 126-129, 137-140 *)
    | SDiv | SMod => Rd 1 (fun a => Rd 0 (fun b => Wr 0 (val [a; b]) Ret))  (* 132-134, 143-145 *)
    | AddMod | MulMod => Rd 2 (fun a => Rd 1 (fun b => Rd 0 (fun c => Wr 0 (val [a; b; c]) Ret)))  (* 148-155 *)
    | Exp => Rd 0 (fun e => gas (Rd 1 (fun a => Wr 0 (val [a; e]) Ret)))  (* 158-167 *)
    | ExpGas => Rd 0 (fun _ => gas Ret)  (* 170-176 *)
    | Keccak256 => Rd 0 (fun len => usize len (fun len => Rd 1 (fun offset => do_keccak256 0 offset len)))  (* 179-186 *)
    | Keccak256CC => do_keccak256 0 x y  (* 189-196 *)
    | Balance | ExtCodeSize | ExtCodeHash => Rd 0 (fun _ => load_account (fun v => Wr 0 (val [v]) Ret))  (* 217-225, 307-315, 366-375 *)
    | Origin | GasPrice | Coinbase | Timestamp | Number | GasLimit | ChainId | Basefee | BlobBaseFee
    | SlotNum => host_ro (fun v => Wr 0 (val [v]) Ret)  (* 228-230, 302-304, 414-426, 438-445, 458-460, 470-472, 480-482 *)
    | CallDataLoad => Rd 0 (fun offset => do_calldataload (Z.min offset (2 ^ 64 - 1)))  (* 233-238 *)
    | CallDataLoadC => do_calldataload x  (* 241-247 *)
    | CallDataCopy =>  (* 268-290 *)
        Rd 0 (fun len => usize len (fun len =>
          if len =? 0 then Ret
          else gas (Rd 2 (fun memory_offset => usize memory_offset (fun _ => ensure_memory (Rd 1 (fun _ =>
                 Own false (fun _ => Far false (fun _ => mem_wr Ret)))))))))
    | CodeCopy => Own false (fun _ => copy_operation)  (* 293-299 *)
    | ExtCodeCopy =>  (* 318-340 *)
        Rd 3 (fun _ => Rd 0 (fun len => usize len (fun len => gas (
          let rest := load_account (fun _ => Far false (fun _ => Rd 1 (fun _ => mem_wr Ret))) in
          if len =? 0 then rest else Rd 2 (fun memory_offset => usize memory_offset (fun _ => ensure_memory rest))))))
    | ReturnDataCopy =>  (* 342-363 *)
        Rd 0 (fun len => usize len (fun len => Rd 1 (fun offset => Own false (fun ret_len =>
          if ret_len <? Z.min offset (2 ^ 64 - 1) + len then fail
          else gas (if len =? 0 then Ret
                    else Rd 2 (fun memory_offset => usize memory_offset (fun _ => ensure_memory (Far false (fun _ => mem_wr Ret)))))))))
    | BlockHash =>  (* 378-411 *)
        Rd 0 (fun requested => host_ro (fun number =>
          if number <? requested then Wr 0 0 Ret
          else if number - requested =? 0 then Wr 0 0 Ret
          else if number - requested <=? 256 then host_call (fun h => Wr 0 h Ret) else Wr 0 0 Ret))
    | Difficulty =>  (* 429-435; [unwrap] of [None] does not return *)
        Own false (fun merge => host_ro (fun v => if (merge =? 0) || (0 <=? v) then Wr 0 (val [v]) Ret else Exit))
    | SelfBalance => Own false (fun _ => Far false (fun _ => host_call (fun v => Wr 0 v Ret)))  (* 448-455 *)
    | BlobHash => Rd 0 (fun _ => host_ro (fun v => Wr 0 (val [v]) Ret))  (* 463-467 *)
    | Mresize => ensure_memory Ret  (* 475-477 *)
    | Sload => do_sload  (* 485-505 *)
    | SloadC => Wr 0 x do_sload  (* 508-516 *)
    | Sstore =>  (* 519-559 *)
        non_static (Own false (fun istanbul => Own false (fun g => Far false (fun stipend =>
          if negb (istanbul =? 0) && (g <=? stipend) then fail
          else gas (Own false (fun _ => Rd 1 (fun _ => Rd 0 (fun _ => host_call (fun _ => gas (Own false (fun _ => Far false (fun amsterdam =>
                 if amsterdam =? 0 then Own true (fun _ => Ret)
                 else state_gas (Own true (fun _ => Own true (fun _ => Ret)))))))))))))))
    | Tload => Own false (fun _ => Far false (fun _ => Rd 0 (fun _ => Far false (fun v => Wr 0 v Ret))))  (* 562-564 *)
    | Tstore => non_static (Own false (fun _ => Far false (fun _ => Rd 1 (fun _ => Rd 0 (fun _ => Far true (fun _ => Ret))))))  (* 567-575 *)
    | Mcopy =>  (* 578-593 *)
        Rd 0 (fun len => usize len (fun len => gas (
          if len =? 0 then Ret
          else Rd 2 (fun dst => usize dst (fun _ => Rd 1 (fun src => usize src (fun _ => ensure_memory (mem_wr Ret))))))))
    | Log =>  (* 595-630; [x] topics *)
        let n := Z.to_nat x in
        let rest := topics n n (Own false (fun _ => Far false (fun _ => Own false (fun _ => Far true (fun _ => Ret))))) in
        non_static (Rd n (fun len => usize len (fun len => gas (
          if len =? 0 then rest else Rd (n + 1) (fun offset => usize offset (fun _ => ensure_memory (mem_rd rest)))))))
    | Create =>  (* 633-698; [x] is the kind: 0 CREATE, otherwise CREATE2 *)
        let top := if x =? 0 then 3%nat else 4%nat in
        let finish := Own false (fun _ => gas (Rd (top - 1) (fun _ => Own false (fun _ => Far true (fun _ => Ret))))) in
        let finish := host_ro (fun amsterdam => if amsterdam =? 0 then finish else state_gas finish) in
        let pay := gas (if x =? 0 then finish else Rd (top - 4) (fun _ => finish)) in
        non_static (Rd (top - 3) (fun len => usize len (fun len =>
          if len =? 0 then pay
          else let copy := Rd (top - 2) (fun offset => usize offset (fun _ => ensure_memory (mem_rd pay))) in
               Own false (fun shanghai => if shanghai =? 0 then copy
                 else Far false (fun max => if max <? len then fail else gas copy)))))
    | Call =>  (* 701-823; [x] is the kind: 0 CALL, 1 CALLCODE, 2 DELEGATECALL, 3 STATICCALL *)
        let top := if x <? 2 then 7%nat else 6%nat in
        let finish := gas (state_gas (Own false (fun _ => gas (Own false (fun _ => Far true (fun _ => Ret)))))) in
        let load := host_call (fun _ => finish) in
        let output (v : Z) (i : nat) :=
          Rd (top - i - 4) (fun out_len => usize out_len (fun out_len =>
            let next := if v =? 0 then load else gas load in
            if out_len =? 0 then next else Rd (top - i - 3) (fun o => usize o (fun _ => ensure_memory next)))) in
        let ranges (v : Z) (i : nat) :=
          Rd (top - i - 2) (fun in_len => usize in_len (fun in_len =>
            if in_len =? 0 then output v i else Rd (top - i - 1) (fun o => usize o (fun _ => ensure_memory (mem_rd (output v i)))))) in
        Rd (top - 1) (fun _ => Rd (top - 2) (fun _ =>
          if x <? 2 then
            Rd (top - 3) (fun v => Own false (fun s => if (x =? 0) && negb (s =? 0) && negb (v =? 0) then fail else ranges v 3%nat))
          else ranges 0 2%nat))
    | DoReturn => Rd 0 (fun len => usize len (fun len => do_return (fun k => Rd 1 (fun o => usize o k)) len))  (* 826-843 *)
    | DoReturnCC => do_return (fun k => k x) y  (* 846-863 *)
    | SelfDestruct =>  (* 866-896 *)
        non_static (Far false (fun _ => Own false (fun _ => Far false (fun _ => Rd 0 (fun _ => host_call (fun _ => gas (
          Own false (fun _ => Far false (fun charge => if charge =? 0 then Own true (fun _ => fail) else state_gas (Own true (fun _ => fail)))))))))))
    end.
End Bodies.

(** The call sites that pass a stack pointer: the opcode being translated and how many words below the top of
    the stack the pointer is. [sp_after_inputs], [sp_at_top]: translate/mod.rs:1509-1535, 723-1161, 1371;
    [ExpGas], [SloadC], [CallDataLoadC], [Keccak256CC]: translate/peephole.rs:250-253, 280-316. *)
Definition site (b : builtin) : Z * nat :=
  match b with
  | ExpGas => (0x0a%Z, 2) | SloadC => (0x54%Z, 1) | CallDataLoadC => (0x35%Z, 1) | Keccak256CC => (0x20%Z, 2)
  | _ => (bop b, match opcode_io (bop b) with Some (inputs, _) => inputs | None => O end)
  end%nat.

(** Runs of a body: the accesses in order, whether it returned to its caller, and the words left behind. *)
Inductive event := ERd (k : nat) | EWr (k : nat) | EOwn (w : bool) | EFar (w : bool) | EFree.
Definition words := nat -> Z.
Definition set_word (w : words) (k : nat) (v : Z) : words := fun j => if Nat.eqb j k then v else w j.
Inductive exec : prog -> words -> list event -> bool -> words -> Prop :=
| X_ret w : exec Ret w [] true w
| X_exit w : exec Exit w [] false w
| X_rd k f w t r w' : exec (f (w k)) w t r w' -> exec (Rd k f) w (ERd k :: t) r w'
| X_wr k v p w t r w' : exec p (set_word w k v) t r w' -> exec (Wr k v p) w (EWr k :: t) r w'
| X_own b f a w t r w' : exec (f a) w t r w' -> exec (Own b f) w (EOwn b :: t) r w'
| X_far b f a w t r w' : exec (f a) w t r w' -> exec (Far b f) w (EFar b :: t) r w'
| X_grow f a w t r w' : exec (f a) w t r w' -> exec (Grow f) w (EFar true :: (if a <=? 1 then [] else [EFree]) ++ t) r w'.
