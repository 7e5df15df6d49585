(** Model of suspension and re-entry of compiled functions.

    Sources: crates/revmc-codegen/src/compiler/translate/mod.rs (suspend, the resume and suspend blocks
    of [translate]; cited lines are of this file unless stated otherwise) and
    crates/revmc-context/src/lib.rs (ResumeAt, call_with_interpreter). *)
From Verif Require Export JumpModel.

(** ** Code generation. *)

(** [resume_blocks] (entry of the block) and [suspend_blocks] (here: the suspending instruction and the
    value its phi edge carries), 136-140. *)
Record rtab := mkRt { rt_blocks : list jnext; rt_values : list (nat * nat) }.
(** [translate_inst] reaches [suspend] for these: not dead (290), not disabled or unknown (570-575), not
    a NOOP (609); [const_output] is never known for them (616-620 asserts it). *)
Definition emits_suspend (d : idata) : bool :=
  negb (is_dead d) && may_suspend d && negb (f_disabled (d_flags d)) && negb (f_unknown (d_flags d)) && negb (f_noop (d_flags d)).
(** [suspend], 1404-1424; [None]: the [expect] panics. *)
Definition emit_inst (p : bc) (t : rtab) (i : nat) (d : idata) : option rtab :=
  if emits_suspend d then
    match effective_next_entry p i with
    | Some b => Some (mkRt (rt_blocks t ++ [b]) (rt_values t ++ [(i, (length (rt_blocks t) + 1)%nat)]))
    | None => None
    end
  else Some t.
(** The translation loop, 289-292. *)
Fixpoint emit_from (p : bc) (t : rtab) (i : nat) (l : list idata) : option rtab :=
  match l with
  | [] => Some t
  | d :: l' => match emit_inst p t i d with Some t' => emit_from p t' (S i) l' | None => None end
  end.
Definition build_table (p : bc) : option rtab := emit_from p (mkRt [] []) 0 (b_insts p).
(** [calc_may_suspend], bytecode/mod.rs:571-574. *)
Definition calc_may_suspend (p : bc) : bool := existsb (fun d => negb (is_dead d) && may_suspend d) (b_insts p).

(** ** Execution. *)

(** The stack: a buffer of words and the number of live ones, deepest first. *)
Record stk := mkStk { s_buf : nat -> Z; s_len : nat }.
Definition live (s : stk) : list Z := map (s_buf s) (seq 0 (s_len s)).
(** Stores of an instruction: the live words are overwritten, the others stay. *)
Definition store (s : stk) (l : list Z) : stk := mkStk (fun k => nth k l (s_buf s k)) (length l).
(** [copy_stack_from_arg] and [copy_stack_to_arg], 1479-1497: [memcpy] of the live prefix, or nothing if
    the function works on the caller's buffer ([local] = [sp_arg.is_some()]). *)
Definition copy (local : bool) (src dst : nat -> Z) (n : nat) : nat -> Z :=
  if local then fun k => if (k <? n)%nat then src k else dst k else src.

(** What the code of one instruction does; computed by an arbitrary function of the live stack and the
    rest of the machine. [BSuspend]: the builtin of CALL or CREATE has stored the action; the stack has
    its inputs removed ([effective_stack_diff], 2132-2139). *)
Inductive bres (W R : Type) := BNext (j : nat) (st : list Z) (w : W) | BSuspend (st : list Z) (w : W) | BDone (r : R) (w : W).
Arguments BNext {W R}. Arguments BSuspend {W R}. Arguments BDone {W R}.

(** How a call of the function ends: with a result, suspended (the values left in [ecx.resume_at], the
    caller's stack buffer and length), or in [call_panic]. *)
Inductive fres (W R : Type) := FDone (r : R) (w : W) | FSuspended (resume_at : nat) (s : stk) (w : W) | FPanic.
Arguments FDone {W R}. Arguments FSuspended {W R}. Arguments FPanic {W R}.

Section Run.
  Context {W R : Type} (p : bc) (t : rtab) (local inspect : bool) (body : nat -> list Z -> W -> bres W R).

  (** From the entry of instruction [i] with the function's own stack [s] to the end of the call; [arg]
      is the caller's buffer. *)
  Inductive runs : nat -> stk -> (nat -> Z) -> W -> fres W R -> Prop :=
  | runs_done i s arg w r w' : body i (live s) w = BDone r w' -> runs i s arg w (FDone r w')
  | runs_next i s arg w j st w' o : body i (live s) w = BNext j st w' -> runs j (store s st) arg w' o -> runs i s arg w o
  (* the suspend block, 404-421; with [inspect_stack] the return block copies instead, 446-451 *)
  | runs_suspend i s arg w st w' v : body i (live s) w = BSuspend st w' -> In (i, v) (rt_values t) ->
      runs i s arg w (FSuspended v (mkStk (copy local (s_buf (store s st)) arg (length st)) (length st)) w').

  (** One call of the function: [entry.post], 372-402 and 424-428. [junk] is the uninitialised local
      stack. *)
  Inductive calls (junk : nat -> Z) (resume_at : nat) (s : stk) (w : W) : fres W R -> Prop :=
  | calls_start o : calc_may_suspend p = false \/ resume_at = 0%nat ->
      (let n := if inspect then s_len s else 0%nat in
       runs 0 (mkStk (copy local (s_buf s) junk n) n) (s_buf s) w o) -> calls junk resume_at s w o
  | calls_resume j o : calc_may_suspend p = true -> resume_at <> 0%nat -> nth_error (rt_blocks t) (resume_at - 1) = Some (JGoto j) ->
      runs j (mkStk (copy local (s_buf s) junk (s_len s)) (s_len s)) (s_buf s) w o -> calls junk resume_at s w o
  | calls_invalid : calc_may_suspend p = true -> resume_at <> 0%nat -> nth_error (rt_blocks t) (resume_at - 1) = None ->
      calls junk resume_at s w FPanic.

  (** The caller: [ResumeAt::load] / [call] / [ResumeAt::store] (lib.rs:44-54, 310-350) with the
      interpreter's pc, stack and length; after a suspension the host carries out the action and pushes
      one word (revm's frame code, not in /repo). *)
  Inductive drives (junk : nat -> nat -> Z) (host : W -> Z * W) : nat -> nat -> stk -> W -> option (R * W) -> Prop :=
  | drives_done k pc s w r w' : calls (junk k) pc s w (FDone r w') -> drives junk host k pc s w (Some (r, w'))
  | drives_panic k pc s w : calls (junk k) pc s w FPanic -> drives junk host k pc s w None
  | drives_again k pc s w pc' s' w1 v w2 o : calls (junk k) pc s w (FSuspended pc' s' w1) -> host w1 = (v, w2) ->
      drives junk host (S k) pc' (store s' (live s' ++ [v])) w2 o -> drives junk host k pc s w o.
End Run.
