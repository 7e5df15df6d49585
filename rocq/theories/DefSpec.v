(** What is expected of the shared JIT, in terms of the trace of steps. *)
From Verif Require Export DefModel.

(** The address of a name in a JITDylib. *)
Definition has (dylib : list symbol) (n : name) (a : nat) : Prop := In (n, a) dylib.
(** The trace asks for a name with an address. *)
Definition asked (l : list step) (n : name) (a : nat) : Prop := exists t syms, In (Start t syms) l /\ In (n, a) syms.
(** No definition fails for a reason of its own. *)
Definition no_failure (l : list step) : Prop := forall t, ~ In (Define t false) l.
(** Linking never fails. *)
Definition links_ok (s : sys) : Prop := forall t syms b, In (t, syms, b) (s_links s) -> b = true.
(** The threads do not overlap between taking the lock and defining: after a [Start], the next [Start] of any thread
    comes after the [Define] of the first. *)
Fixpoint one_at_a_time (open : option nat) (l : list step) : Prop :=
  match l with
  | [] => True
  | Start t _ :: l' => open = None /\ one_at_a_time (Some t) l'
  | Define t _ :: l' => one_at_a_time (match open with Some u => if u =? t then None else open | None => None end) l'
  | _ :: l' => one_at_a_time open l'
  end.
