(** What the configuration promises about the helper process. *)
From Verif Require Export HlimModel.

Definition allowed (s : cpu_set) (cpu : nat) : Prop := nth cpu s false = true.
Definition count (s : cpu_set) : nat := List.length (filter (fun b => b) s).
(** Processes that come from a process by forks in a trace. *)
Fixpoint family (l : list event) (f : list nat) : list nat :=
  match l with
  | [] => f
  | Fork p q :: l' => family l' (if existsb (Nat.eqb p) f then q :: f else f)
  | Exit _ :: l' => family l' f
  end.
(** New process ids are new: neither a process nor a group has them, nor had any of the family (POSIX, and ids are not
    recycled while the helper lives). *)
Fixpoint fresh (l : list event) (t : table) (seen : list nat) : Prop :=
  match l with
  | [] => True
  | Fork p q :: l' => ~ In q seen /\ ~ In q (map fst t) /\ ~ In q (map snd t) /\ fresh l' (sys1 t (Fork p q)) (q :: seen)
  | Exit p :: l' => fresh l' (sys1 t (Exit p)) seen
  end.
(** The helper is in the table, alone in its group. *)
Definition helper (t : table) (pid : nat) : Prop :=
  In (pid, pid) t /\ (forall x, In x t -> fst x <> pid -> snd x <> pid) /\ (forall x, In x t -> fst x = pid -> snd x = pid).
