(** What is promised about a compiler instance, as a property of the list of calls made on it and their results. *)
From Verif Require Import LifeModel.

Section Spec.
  Context {code : Type}.
  Notation call := (call code).
  Notation res := (res code).
  Notation func := (func code).

  Definition is_clear (c : call) : bool := match c with Clear _ _ | ClearIr _ => true | _ => false end.
  Definition no_clear (l : list (call * res)) : Prop := Forall (fun e => is_clear (fst e) = false) l.
  (** The module has been turned into code: an address or an object file was handed out. *)
  Definition finalizes (e : call * res) : Prop :=
    match e with (JitFunction _ _ _ _ _ _ _ _, RAddr _) | (WriteObject _ _ _ _ _, RObject _) => True | _ => False end.
  Definition is_translate (c : call) : Prop := match c with Translate _ _ _ _ _ => True | _ => False end.

  (** The caller clears after a failed [jit_function] before asking for or freeing code again. *)
  Fixpoint tidy (dirty : bool) (l : list (call * res)) : Prop :=
    match l with
    | [] => True
    | (c, r) :: l' =>
        match c, r with
        | JitFunction _ _ _ _ _ _ _ _, RErr => dirty = false /\ tidy true l'
        | JitFunction _ _ _ _ _ _ _ _, _ | FreeFunction _ _, _ => dirty = false /\ tidy dirty l'
        | ClearIr _, ROk | Clear _ _, ROk => tidy false l'
        | _, _ => tidy dirty l'
        end
    end.

  (** The same calls and results with function ids [k] and trackers [q] later. *)
  Definition shf (k : nat) (f : func) : func := mkF (f_name f) (f_id f + k) (f_code f).
  Definition shift_call (k q : nat) (c : call) : call :=
    match c with
    | JitFunction id a b c d e f g => JitFunction (id + k) a b c d e f g
    | FreeFunction id r => FreeFunction (id + k) r
    | DropTracker t => DropTracker (t + q)
    | c => c
    end.
  Definition shift_res (k q : nat) (r : res) : res :=
    match r with
    | RId id => RId (id + k)
    | RAddr f => RAddr (shf k f)
    | RObject l => RObject (map (shf k) l)
    | RTracker t => RTracker (option_map (fun t => t + q) t)
    | r => r
    end.

  (** Translate the functions [fs] (name, code), then they are called [number]; ask for one of them. *)
  Definition tr_all (u : bool) (fs : list (nat * code)) : list call := map (fun p => Translate (fst p) (snd p) true u true) fs.
  Fixpoint number (k : nat) (fs : list (nat * code)) : list func :=
    match fs with [] => [] | (n, c) :: fs' => mkF n k c :: number (S k) fs' end.
  Definition jit_one (id : nat) : call := JitFunction id true true true true true true true.
End Spec.
