(** What the attributes of AttrModel.v promise (LLVM Language Reference, parameter and function attributes),
    said about one run of a function: the list of its accesses and whether it returned. *)
From Verif Require Export AttrModel.
Open Scope Z_scope.

Definition touches (k : nat) (t : list event) : Prop := In (ERd k) t \/ In (EWr k) t.
(** Word [k] lies within the first [n] bytes. *)
Definition within (k : nat) (n : Z) : Prop := 32 * Z.of_nat k + 32 <= n.

(** Promises about the stack pointer. [writeonly] in the weaker reading: nothing of what the caller left in
    memory is read (a function may read back what it has written itself); [C59_writeonly_refuted] is about
    the literal one. *)
Definition sp_promise (a : attr) (t : list event) (returned : bool) : Prop :=
  match a with
  | ADeref n => forall k, touches k t -> within k n
  | AReadNone => forall k, ~ touches k t
  | AReadOnly => forall k, ~ In (EWr k) t
  | AWriteOnly => forall t1 k t2, t = t1 ++ ERd k :: t2 -> In (EWr k) t1
  | AInit n => (forall t1 k t2, t = t1 ++ ERd k :: t2 -> within k n -> In (EWr k) t1)
               /\ (returned = true -> forall k, within k n -> In (EWr k) t)
  | _ => True
  end.
Definition writeonly_literally (t : list event) : Prop := forall k, ~ In (ERd k) t.
(** Promises about the pointer to the context. *)
Definition ctx_promise (a : attr) (t : list event) : Prop :=
  match a with AReadOnly => ~ In (EOwn true) t | _ => True end.
(** Promises about the function. *)
Definition fn_promise (a : attr) (t : list event) (returned : bool) : Prop :=
  match a with
  | ANoReturn => returned = false
  | AArgMemOnly => forall w, ~ In (EFar w) t
  | ANoFree => ~ In EFree t
  | _ => True
  end.

(** A declared parameter fits the Rust parameter it stands for: a shared reference to the context may only be
    declared read-only or weaker, a mutable one never read-only. *)
Definition fits (k : pkind) (r : rparam) : Prop :=
  match k, r with
  | KEcx, RCtxMut | KEcx, RCtx | KEcxRo, RCtx | KSp, RWords _ _ | KSpDyn, RRawWords | KPtr, RBytes | KUsize, RU64
  | KU8, RByte => True
  | _, _ => False
  end.

(** Stack inputs of the instructions whose builtins take an argument: LOGn (n), CREATE and CREATE2 (0, 1), CALL,
    CALLCODE, DELEGATECALL and STATICCALL (0 to 3). *)
Definition dyn_inputs (b : builtin) (x : Z) : nat :=
  match b with
  | Log => Z.to_nat (x + 2)
  | Create => if x =? 0 then 3%nat else 4%nat
  | Call => if x <? 2 then 7%nat else 6%nat
  | _ => O
  end.
