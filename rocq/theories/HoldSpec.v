(** What C38 asks: the code behind a reference that a caller holds. *)
From Verif Require Export HoldModel.
Open Scope Z_scope.

(** The code an object's entry point leads to: [None] when it was freed or when the mapped file is incomplete. *)
Definition code_of (o : nat) (m : mem) : option func :=
  match oget o (m_objs m) with
  | None => None
  | Some (BJit f, _) => Some f
  | Some (BLib i, _) => match oget i (m_data m) with Some (Some f) => Some f | _ => None end
  end.
Definition mapped (o : nat) (m : mem) : Prop := oget o (m_objs m) <> None.

(** A legal start: one file per artifact of the store; the preloaded artifacts are among them, at most one per
    runtime key (C39). *)
Definition legal_start (pre : list (akey * func)) (st : option (list (akey * func))) : Prop :=
  NoDup (map (fun p => fst (fst p)) pre) /\
  match st with Some st => NoDup (map fst st) /\ incl pre st | None => pre = [] end.

(** Commands that clear anything. *)
Definition any_clear (x : cmd) : bool := match x with ClearResident | ClearPersisted | ClearAll => true | _ => false end.
(** The step is not a request for a clear, and the attempts to load from the store that it makes succeed. *)
Definition quiet (a : action) : Prop :=
  match a with
  | ASend x => any_clear x = false
  | BCmd o | BEvent o => forall n, o_io o n = true
  | _ => True
  end.
Definition hquiet (a : haction) : Prop := match a with HAct a => quiet a | HDrop _ => True end.
