(** What is promised about the compilation helper and about pausing it. *)
From Verif Require Export HelperModel.

Section Spec.
  Context {R : Type}.
  Variable compiled : nat -> R.
  Variable timeout cap : nat.
  Notation state := (state R).

  (** A history of the system from its start. *)
  Definition history (l : list act) (s : state) : Prop := run compiled timeout cap init l = Some s.

  (** No [pause] or [resume] call is in progress, and all their commands have been carried out. *)
  Definition settled (s : state) : Prop := s_pp s = [] /\ s_pr s = 0 /\ s_queue s = [] /\ s_bk s = BIdle.
  (** More pauses than resumes have been issued. *)
  Definition paused_by_callers (s : state) : Prop := s_held s + length (s_pp s) > 0.
  (** The last instruction to stop or to continue among the requests a helper has not read yet. *)
  Fixpoint last_order (l : list msg) (b : bool) : bool :=
    match l with [] => b | MPause _ :: l' => last_order l' true | MResume :: l' => last_order l' false | _ :: l' => last_order l' b end.
  (** The helper jobs are sent to runs (is stopped), and so will its threads once it has read its requests. *)
  Definition helper_running (s : state) : Prop :=
    forall g p, s_slot s = Some g -> nth_error (s_procs s) g = Some p -> p_alive p = true -> p_stopped p = false /\ last_order (p_in p) (p_ip p) = false.
  Definition helper_stopped (s : state) : Prop :=
    forall g p, s_slot s = Some g -> nth_error (s_procs s) g = Some p -> p_alive p = true -> p_stopped p = true.
  (** No [pause] starts while a [resume] still has to send its command. *)
  Fixpoint no_overlap (s : state) (l : list act) : Prop :=
    match l with
    | [] => True
    | a :: l' => (a = APauseAdd -> s_pr s = 0) /\ match step compiled timeout cap s a with Some s1 => no_overlap s1 l' | None => True end
    end.
  (** Ticks of the clock while the helper is not paused. *)
  Fixpoint running_time (s : state) (l : list act) : nat :=
    match l with
    | [] => 0
    | a :: l' => (match a with ATick => if s_flag s then 0 else 1 | _ => 0 end) + match step compiled timeout cap s a with Some s1 => running_time s1 l' | None => 0 end
    end.
  (** The clock or the job's own thread. *)
  Definition own_step (j : nat) (a : act) : Prop := a = ATick \/ a = ARecv j \/ a = AExpire j \/ a = ALate j \/ a = ADiscard j.
End Spec.
