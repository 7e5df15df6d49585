(** Specification for suspension: execution without interruption. *)
From Coq Require Export List ZArith Bool.
Import ListNotations.
Open Scope Z_scope.

(** What an instruction does to the stack (deepest word first) and the rest of the machine. *)
Inductive effect (W R : Type) := Continue (next : nat) (st : list Z) (w : W) | CallOut (st : list Z) (w : W) | Finish (r : R) (w : W).
Arguments Continue {W R}. Arguments CallOut {W R}. Arguments Finish {W R}.

(** [after i j]: [j] follows [i]. A CALL or CREATE is one instruction: the host does the call, the result
    is pushed, and execution goes on after it. *)
Inductive executes {W R} (eff : nat -> list Z -> W -> effect W R) (after : nat -> nat -> Prop) (host : W -> Z * W)
  : nat -> list Z -> W -> R -> W -> Prop :=
| ex_finish i st w r w' : eff i st w = Finish r w' -> executes eff after host i st w r w'
| ex_next i st w j st' w1 r w' : eff i st w = Continue j st' w1 -> executes eff after host j st' w1 r w' -> executes eff after host i st w r w'
| ex_call i st w st1 w1 v w2 j r w' : eff i st w = CallOut st1 w1 -> host w1 = (v, w2) -> after i j ->
    executes eff after host j (st1 ++ [v]) w2 r w' -> executes eff after host i st w r w'.
