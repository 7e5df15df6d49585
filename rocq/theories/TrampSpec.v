(** What a caller of [revmc_entry] relies on, from the ABIs (System V AMD64, AAPCS64), and what is asked of the
    compiled code in between. *)
From Verif Require Export TrampModel.
Open Scope Z_scope.

(** [m'] has the bytes of [m] in [lo, hi). *)
Definition same (m m' : bytes) (lo hi : Z) : Prop := forall x, lo <= x < hi -> m' x = m x.
(** [m'] differs from [m] in [lo, hi) and in [lo', hi') at most. *)
Definition only (m m' : bytes) (lo hi lo' hi' : Z) : Prop := forall x, ~ lo <= x < hi -> ~ lo' <= x < hi' -> m' x = m x.
Definition is_u64 (z : Z) : Prop := 0 <= z < W64.

(** ** System V AMD64: the registers a function must preserve, besides [rsp]; the return address is on the stack. *)
Definition x_callee_saved : list xreg := [RBX; RBP; R12; R13; R14; R15].
(** The state after a function called in state [s0] (its first instruction not yet executed) has returned. *)
Definition x_returned (s0 s : xstate) : Prop :=
  xpc s = load64 (xm s0) (xr s0 RSP) /\ xr s RSP = xr s0 RSP + 8 /\ forall r, In r x_callee_saved -> xr s r = xr s0 r.
(** A call of [revmc_entry]: room on the stack, aligned as at every function entry; the context is an object of
    [size] bytes, inside the address space and outside the stack below and the return address. *)
Definition x_called (size : Z) (s0 : xstate) : Prop :=
  (forall r, is_u64 (xr s0 r)) /\
  64 <= xr s0 RSP /\ xr s0 RSP + 8 < W64 /\ (xr s0 RSP + 8) mod 16 = 0 /\
  xr s0 RDI + size <= W64 /\ (xr s0 RDI + size <= xr s0 RSP - 64 \/ xr s0 RSP + 8 <= xr s0 RDI).
(** What is asked of the compiled code, entered in state [s1] from a call in state [s0]: the stack above its frame
    is left alone. If it returns, it keeps the ABI and its result is in [al]. If a builtin calls [revmc_exit], that
    is with the same context, whose [exit_sp] nobody has changed; registers and stack pointer may be anything. *)
Definition x_code_ok (exit_sp exit_result : Z) (s0 s1 : xstate) (e : fin xstate) (result : Z) : Prop :=
  match e with
  | Returned s => x_returned s1 s /\ same (xm s1) (xm s) (xr s0 RSP - 48) (xr s0 RSP + 8) /\ xr s RAX mod 256 = result
  | Exited s => xr s RDI = xr s0 RDI /\ same (xm s1) (xm s) (xr s0 RSP - 48) (xr s0 RSP + 8)
                /\ same (xm s1) (xm s) (xr s0 RDI + exit_sp) (xr s0 RDI + exit_sp + 8)
                /\ 0 <= xm s (xr s0 RDI + exit_result) < 256 /\ xm s (xr s0 RDI + exit_result) = result
  end.

(** ** AAPCS64: the registers to preserve, besides [sp]; the return address is in [x30]. *)
Definition a_callee_saved : list areg :=
  map X [19; 20; 21; 22; 23; 24; 25; 26; 27; 28; 29]%nat ++ map D [8; 9; 10; 11; 12; 13; 14; 15]%nat.
Definition a_returned (s0 s : astate) : Prop :=
  apc s = ar s0 (X 30) /\ ar s SP = ar s0 SP /\ forall r, In r a_callee_saved -> ar s r = ar s0 r.
Definition a_called (size : Z) (s0 : astate) : Prop :=
  (forall r, is_u64 (ar s0 r)) /\
  160 <= ar s0 SP /\ ar s0 SP < W64 /\ ar s0 SP mod 16 = 0 /\
  ar s0 (X 0) + size <= W64 /\ (ar s0 (X 0) + size <= ar s0 SP - 160 \/ ar s0 SP <= ar s0 (X 0)).
Definition a_code_ok (exit_sp exit_result : Z) (s0 s1 : astate) (e : fin astate) (result : Z) : Prop :=
  match e with
  | Returned s => a_returned s1 s /\ same (am s1) (am s) (ar s0 SP - 160) (ar s0 SP) /\ ar s (X 0) mod 256 = result
  | Exited s => ar s (X 0) = ar s0 (X 0) /\ same (am s1) (am s) (ar s0 SP - 160) (ar s0 SP)
                /\ same (am s1) (am s) (ar s0 (X 0) + exit_sp) (ar s0 (X 0) + exit_sp + 8)
                /\ 0 <= am s (ar s0 (X 0) + exit_result) < 256 /\ am s (ar s0 (X 0) + exit_result) = result
  end.
