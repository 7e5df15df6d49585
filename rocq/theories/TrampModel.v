(** Model of the trampolines between Rust and compiled code: [revmc_entry] and [revmc_exit].

    Sources: crates/revmc-context/src/arch/{x86_64,aarch64}.rs. The assembly is kept instruction by instruction
    and run on a machine with 64-bit registers and byte-addressed memory. Not modelled: flags, the upper halves
    of vector registers, the control words of the floating point units, the encoding of instructions. *)
From Coq Require Export List Arith ZArith Lia Bool.
Export ListNotations.
Open Scope Z_scope.

(** ** Memory: little-endian words. *)
Definition W64 : Z := 2 ^ 64.
Definition bytes := Z -> Z.
Fixpoint get (n : nat) (m : bytes) (a : Z) : Z :=
  match n with O => 0 | S n' => m a + 256 * get n' m (a + 1) end.
Definition load64 (m : bytes) (a : Z) : Z := get 8 m a.
Definition store64 (m : bytes) (a v : Z) : bytes :=
  fun x => if (a <=? x) && (x <? a + 8) then v / 256 ^ (x - a) mod 256 else m x.

(** ** x86-64. *)
Inductive xreg := RAX | RBX | RCX | RDX | RSI | RDI | RBP | RSP | R8 | R9 | R10 | R11 | R12 | R13 | R14 | R15.
Scheme Equality for xreg.
Record xstate := mkX { xr : xreg -> Z; xm : bytes; xpc : Z }.
Definition xset (s : xstate) (r : xreg) (v : Z) : xstate :=
  mkX (fun q => if xreg_beq q r then v else xr s q) (xm s) (xpc s).
Definition xmem (s : xstate) (m : bytes) : xstate := mkX (xr s) m (xpc s).
Definition xjmp (s : xstate) (a : Z) : xstate := mkX (xr s) (xm s) a.

(** The instructions used. [XCall] pushes the address [back] of the next instruction. *)
Inductive xins :=
| XPush (r : xreg) | XPop (r : xreg)
| XStore (base : xreg) (off : Z) (src : xreg)      (* mov [base + off], src *)
| XLoad (dst base : xreg) (off : Z)                (* mov dst, [base + off] *)
| XMovzx (dst base : xreg) (off : Z)               (* movzx dst, byte ptr [base + off] *)
| XSub (r : xreg) (n : Z) | XAdd (r : xreg) (n : Z)
| XCall (r : xreg) | XRet.

Definition xstep (back : Z) (i : xins) (s : xstate) : xstate :=
  match i with
  | XPush r => let a := (xr s RSP - 8) mod W64 in xmem (xset s RSP a) (store64 (xm s) a (xr s r))
  | XPop r => let v := load64 (xm s) (xr s RSP) in xset (xset s RSP ((xr s RSP + 8) mod W64)) r v
  | XStore base off src => xmem s (store64 (xm s) ((xr s base + off) mod W64) (xr s src))
  | XLoad dst base off => xset s dst (load64 (xm s) ((xr s base + off) mod W64))
  | XMovzx dst base off => xset s dst (xm s ((xr s base + off) mod W64))
  | XSub r n => xset s r ((xr s r - n) mod W64)
  | XAdd r n => xset s r ((xr s r + n) mod W64)
  | XCall r => let a := (xr s RSP - 8) mod W64 in xjmp (xmem (xset s RSP a) (store64 (xm s) a back)) (xr s r)
  | XRet => xjmp (xset s RSP ((xr s RSP + 8) mod W64)) (load64 (xm s) (xr s RSP))
  end.
Definition xrun (back : Z) (l : list xins) (s : xstate) : xstate := fold_left (fun s i => xstep back i s) l s.

(** [revmc_entry], x86_64.rs:22-44, up to and including the call; the rest, after the call returned. [exit_sp],
    [exit_result] are the offsets of the fields, arch/mod.rs:15-18. *)
Definition x_entry (exit_sp : Z) : list xins :=
  [XPush RBP; XPush RBX; XPush R12; XPush R13; XPush R14; XPush R15;
   XStore RDI exit_sp RSP; XSub RSP 8; XCall RCX].
Definition x_leave : list xins :=
  [XAdd RSP 8; XPop R15; XPop R14; XPop R13; XPop R12; XPop RBX; XPop RBP; XRet].
(** [revmc_exit], x86_64.rs:54-69. *)
Definition x_exit (exit_sp exit_result : Z) : list xins :=
  [XMovzx RAX RDI exit_result; XLoad RSP RDI exit_sp;
   XPop R15; XPop R14; XPop R13; XPop R12; XPop RBX; XPop RBP; XRet].

(** A call of [revmc_entry]: the compiled code (with the builtins it calls) starts in the state the first part
    leaves; it returns, or a builtin calls [revmc_exit] (lib.rs:79-82 of revmc-builtins). *)
Inductive fin (S : Type) := Returned (s : S) | Exited (s : S).
Arguments Returned {S}. Arguments Exited {S}.
Definition x_call (back exit_sp exit_result : Z) (code : xstate -> fin xstate) (s0 : xstate) : xstate :=
  match code (xrun back (x_entry exit_sp) s0) with
  | Returned s => xrun back x_leave s
  | Exited s => xrun back (x_exit exit_sp exit_result) s
  end.

(** ** AArch64. [D n] is the low half of vector register n. *)
Inductive areg := X (n : nat) | SP | D (n : nat).
Scheme Equality for areg.
Record astate := mkA { ar : areg -> Z; am : bytes; apc : Z }.
Definition aset (s : astate) (r : areg) (v : Z) : astate :=
  mkA (fun q => if areg_beq q r then v else ar s q) (am s) (apc s).
Definition amem (s : astate) (m : bytes) : astate := mkA (ar s) m (apc s).
Definition ajmp (s : astate) (a : Z) : astate := mkA (ar s) (am s) a.

Inductive ains :=
| AStpPre (p q : areg) (off : Z)      (* stp p, q, [sp, #off]! *)
| AStp (p q : areg) (off : Z)         (* stp p, q, [sp, #off] *)
| ALdp (p q : areg) (off : Z)         (* ldp p, q, [sp, #off] *)
| ALdpPost (p q : areg) (off : Z)     (* ldp p, q, [sp], #off *)
| AMov (dst src : areg)               (* mov dst, src *)
| AStr (src base : areg) (off : Z)    (* str src, [base, off] *)
| ALdr (dst base : areg) (off : Z)    (* ldr dst, [base, off] *)
| ALdrb (dst base : areg) (off : Z)   (* ldrb dst, [base, off] *)
| ABlr (r : areg) | ARet.

Definition astep (back : Z) (i : ains) (s : astate) : astate :=
  match i with
  | AStpPre p q off =>
      let a := (ar s SP + off) mod W64 in amem (aset s SP a) (store64 (store64 (am s) a (ar s p)) (a + 8) (ar s q))
  | AStp p q off => let a := (ar s SP + off) mod W64 in amem s (store64 (store64 (am s) a (ar s p)) (a + 8) (ar s q))
  | ALdp p q off => let a := (ar s SP + off) mod W64 in aset (aset s p (load64 (am s) a)) q (load64 (am s) (a + 8))
  | ALdpPost p q off =>
      let a := ar s SP in aset (aset (aset s SP ((a + off) mod W64)) p (load64 (am s) a)) q (load64 (am s) (a + 8))
  | AMov dst src => aset s dst (ar s src)
  | AStr src base off => amem s (store64 (am s) ((ar s base + off) mod W64) (ar s src))
  | ALdr dst base off => aset s dst (load64 (am s) ((ar s base + off) mod W64))
  | ALdrb dst base off => aset s dst (am s ((ar s base + off) mod W64))
  | ABlr r => ajmp (aset s (X 30) back) (ar s r)
  | ARet => ajmp s (ar s (X 30))
  end.
Definition arun (back : Z) (l : list ains) (s : astate) : astate := fold_left (fun s i => astep back i s) l s.

(** [revmc_entry], aarch64.rs:37-65. *)
Definition a_entry (exit_sp : Z) : list ains :=
  [AStpPre (X 29) (X 30) (-160); AStp (X 19) (X 20) 16; AStp (X 21) (X 22) 32; AStp (X 23) (X 24) 48;
   AStp (X 25) (X 26) 64; AStp (X 27) (X 28) 80; AStp (D 8) (D 9) 96; AStp (D 10) (D 11) 112;
   AStp (D 12) (D 13) 128; AStp (D 14) (D 15) 144;
   AMov (X 9) SP; AStr (X 9) (X 0) exit_sp; ABlr (X 3)].
Definition a_leave : list ains :=
  [ALdp (D 14) (D 15) 144; ALdp (D 12) (D 13) 128; ALdp (D 10) (D 11) 112; ALdp (D 8) (D 9) 96;
   ALdp (X 27) (X 28) 80; ALdp (X 25) (X 26) 64; ALdp (X 23) (X 24) 48; ALdp (X 21) (X 22) 32;
   ALdp (X 19) (X 20) 16; ALdpPost (X 29) (X 30) 160; ARet].
(** [revmc_exit], aarch64.rs:74-93. *)
Definition a_exit (exit_sp exit_result : Z) : list ains :=
  [ALdr (X 9) (X 0) exit_sp; ALdrb (X 0) (X 0) exit_result; AMov SP (X 9)] ++ a_leave.

Definition a_call (back exit_sp exit_result : Z) (code : astate -> fin astate) (s0 : astate) : astate :=
  match code (arun back (a_entry exit_sp) s0) with
  | Returned s => arun back a_leave s
  | Exited s => arun back (a_exit exit_sp exit_result) s
  end.
