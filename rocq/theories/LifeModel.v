(** Model of a compiler instance with the LLVM backend (crates/revmc-codegen/src/compiler/mod.rs and
    crates/revmc-llvm/src/lib.rs): which functions are in the module, which are in the JIT, what each
    call does to them. Calls into LLVM, the file system and the translator succeed or fail as the
    caller of the model chooses (booleans in [call]); their effect on the module list is modelled, code
    itself is opaque. Not modelled: timings, sizes, dumps, debug info, attributes. *)
From Coq Require Export List ZArith Bool Arith Lia.
Export ListNotations.

Section Life.
  (** Machine code of a function, whatever it is. *)
  Context {code : Type}.

  (** A function in a module: its symbol name, the id it was given and its code. *)
  Record func := mkF { f_name : nat; f_id : nat; f_code : code }.

  (** [EvmCompiler] (finalized, builtins) and [EvmLlvmBackend] (module, function_counter, function_names)
      with [OrcJitState] (staged_functions, loaded_trackers, committed_functions), mod.rs:87-112,
      lib.rs:133-167, 372-394. The module is its functions and a serial number (which module the cached
      handles belong to). [s_jd]: symbols defined in the JITDylib with the tracker owning them (ORC,
      external). [s_runs]: how often [optimize_module] ran (ghost). *)
  Record life := mkLife {
    s_aot : bool;
    s_finalized : bool;
    s_builtins : option nat;          (* module the cached builtin handles belong to *)
    s_mid : nat;                      (* serial number of the current module *)
    s_module : list func;
    s_counter : nat;
    s_names : list (nat * nat);       (* id, name *)
    s_staged : list nat;              (* ids *)
    s_committed : list (nat * nat);   (* id, index into the trackers *)
    s_trackers : list nat;            (* tracker serial numbers *)
    s_ntr : nat;
    s_jd : list (nat * func);         (* owning tracker, function *)
    s_runs : nat
  }.
  (** [EvmCompiler::new] (mod.rs:126-144) over [EvmLlvmBackend::new] (lib.rs:522-602). *)
  Definition new_life (aot : bool) : life := mkLife aot false None 0 [] 0 [] [] [] [] 0 [] 0.

  (** Results: an error; the id of a translated function; the function an address belongs to; the functions of
      an object file; a panic; undefined behaviour (a handle into a module that no longer exists). *)
  Inductive res := RErr | ROk | RId (id : nat) | RAddr (f : func) | RObject (l : list func) | RTracker (t : option nat) | RPanic | RUb.

  (** Calls, with the outcomes of the external steps. *)
  Inductive call :=
  | Translate (name : nat) (c : code) (parse_ok uses_builtins body_ok : bool)
  | JitFunction (id : nat) (before_opt opt after_opt create add lookup dump : bool)
  | WriteObject (before_opt opt after_opt write dump : bool)
  | FreeFunction (id : nat) (remove : bool)
  | ClearIr (create : bool)
  | Clear (jd_clear create : bool)
  | TakeTracker           (* take_last_resource_tracker *)
  | DropTracker (t : nat) (* ResourceTracker::remove by whoever took it *).

  (** [Module::get_function] by name (used by lib.rs:925-995 and mod.rs:585-606). *)
  Definition find_name (name : nat) (l : list func) : option func := find (fun f => f_name f =? name) l.
  (** [function_names.get], lib.rs:1049-1066; ids are unique in it. *)
  Definition name_of (id : nat) (l : list (nat * nat)) : option nat := option_map snd (find (fun p => fst p =? id) l).
  (** [staged_functions.contains_key], lib.rs:372-394. *)
  Definition mem (x : nat) (l : list nat) : bool := existsb (Nat.eqb x) l.

  (** [build_function], lib.rs:925-995: reuse a staged function of that name, or add a new one. *)
  Definition build_function (s : life) (name : nat) (c : code) : life * nat :=
    match find (fun p => snd p =? name) (s_names s), find_name name (s_module s) with
    | Some (id, _), Some f =>
        if negb (s_aot s) && mem id (s_staged s) && (f_id f =? id) then (s, id)
        else (s, id) (* LLVM would rename the new function; excluded by the check in translate_inner *)
    | _, _ =>
        let id := s_counter s in
        (mkLife (s_aot s) (s_finalized s) (s_builtins s) (s_mid s) (s_module s ++ [mkF name id c]) (S id)
                ((id, name) :: s_names s) (if s_aot s then s_staged s else id :: s_staged s)
                (s_committed s) (s_trackers s) (s_ntr s) (s_jd s) (s_runs s), id)
    end.
  (** [translate] and [translate_inner], mod.rs:446-455, 585-606. A builtin handle cached from another module
      must not be used. *)
  Definition translate (s : life) (name : nat) (c : code) (parse_ok uses body_ok : bool) : life * res :=
    if s_finalized s then (s, RErr)
    else if negb parse_ok then (s, RErr)
    else match find_name name (s_module s) with
         | Some _ => (s, RErr)
         | None =>
             let '(s1, id) := build_function s name c in
             if uses && match s_builtins s1 with Some m => negb (m =? s_mid s1) | None => false end then (s1, RUb)
             else
               let s2 := if uses then mkLife (s_aot s1) (s_finalized s1) (Some (s_mid s1)) (s_mid s1) (s_module s1) (s_counter s1)
                                             (s_names s1) (s_staged s1) (s_committed s1) (s_trackers s1) (s_ntr s1) (s_jd s1) (s_runs s1)
                         else s1 in
               (s2, if body_ok then RId id else RErr)
         end.
  (** [finalize], mod.rs:608-665. [before], [opt], [after]: the dumps and the verification before the
      optimizer, the optimizer, the dumps after it. *)
  Definition finalize (s : life) (before opt after : bool) : life * bool :=
    if s_finalized s then (s, true)
    else if negb before then (s, false)
    else
      let s1 := mkLife (s_aot s) (opt && after) (s_builtins s) (s_mid s) (s_module s) (s_counter s) (s_names s) (s_staged s)
                       (s_committed s) (s_trackers s) (s_ntr s) (s_jd s) (S (s_runs s)) in
      (s1, opt && after).
  (** ORC refuses a module defining a symbol the JITDylib already has. *)
  Definition clash (s : life) : bool :=
    existsb (fun f => existsb (fun p => f_name (snd p) =? f_name f) (s_jd s)) (s_module s).
  (** [commit_staged_module], lib.rs:706-738. *)
  Definition commit (s : life) (create add : bool) : life * bool :=
    if s_aot s || match s_staged s with [] => true | _ => false end then (s, true)
    else if negb create then (s, false)
    else if negb add || clash s then
      (mkLife (s_aot s) (s_finalized s) (s_builtins s) (S (s_mid s)) [] (s_counter s) (s_names s) (s_staged s)
              (s_committed s) (s_trackers s) (S (s_ntr s)) (s_jd s) (s_runs s), false)
    else
      (mkLife (s_aot s) (s_finalized s) (s_builtins s) (S (s_mid s)) [] (s_counter s) (s_names s) []
              (map (fun id => (id, length (s_trackers s))) (s_staged s) ++ s_committed s) (s_trackers s ++ [s_ntr s]) (S (s_ntr s))
              (map (fun f => (s_ntr s, f)) (s_module s) ++ s_jd s) (s_runs s), true).
  (** [jit_function], mod.rs:481-494 and lib.rs:1049-1066. *)
  Definition jit_function (s : life) (id : nat) (before opt after create add lookup dump : bool) : life * res :=
    if s_aot s then (s, RErr)
    else let '(s1, ok1) := finalize s before opt after in
      if negb ok1 then (s1, RErr)
      else let '(s2, ok2) := commit s1 create add in
        if negb ok2 then (s2, RErr)
        else match name_of id (s_names s2) with
             | None => (s2, RPanic)
             | Some n =>
                 if negb lookup then (s2, RErr)
                 else match find_name n (map snd (s_jd s2)) with
                      | Some f => (s2, if dump then RAddr f else RErr)
                      | None => (s2, RErr)
                      end
             end.
  (** [write_object], mod.rs:506-516 and lib.rs:1040-1047. *)
  Definition write_object (s : life) (before opt after write dump : bool) : life * res :=
    let '(s1, ok1) := finalize s before opt after in
    if negb ok1 then (s1, RErr) else (s1, if write && dump then RObject (s_module s1) else RErr).
  (** [free_function], mod.rs:530-532 and lib.rs:1102-1128. Deleting a staged function that is not in the
      current module is a use after free. *)
  Definition free_function (s : life) (id : nat) (remove : bool) : life * res :=
    let dangling := mem id (s_staged s) && negb (existsb (fun f => f_id f =? id) (s_module s)) in
    if dangling then (s, RUb)
    else
      let module1 := if mem id (s_staged s) then filter (fun f => negb (f_id f =? id)) (s_module s) else s_module s in
      let staged1 := filter (fun i => negb (i =? id)) (s_staged s) in
      match find (fun p => fst p =? id) (s_committed s) with
      | Some (_, t) =>
          let committed1 := filter (fun p => negb (fst p =? id)) (s_committed s) in
          if negb remove then
            (mkLife (s_aot s) (s_finalized s) (s_builtins s) (s_mid s) module1 (s_counter s) (s_names s) staged1
                    committed1 (s_trackers s) (s_ntr s) (s_jd s) (s_runs s), RErr)
          else
            let gone := map fst (filter (fun p => snd p =? t) committed1) in
            match nth_error (s_trackers s) t with
            | None => (s, RPanic)
            | Some tr =>
            (mkLife (s_aot s) (s_finalized s) (s_builtins s) (s_mid s) module1 (s_counter s)
                    (filter (fun p => negb (mem (fst p) (id :: gone))) (s_names s)) staged1
                    (filter (fun p => negb (snd p =? t)) committed1) (s_trackers s) (s_ntr s)
                    (filter (fun p => negb (fst p =? tr)) (s_jd s)) (s_runs s), ROk)
            end
      | None =>
          (mkLife (s_aot s) (s_finalized s) (s_builtins s) (s_mid s) module1 (s_counter s)
                  (filter (fun p => negb (fst p =? id)) (s_names s)) staged1
                  (s_committed s) (s_trackers s) (s_ntr s) (s_jd s) (s_runs s), ROk)
      end.
  (** [clear_ir], mod.rs:538-544 and lib.rs:1090-1100. *)
  Definition clear_ir (s : life) (create : bool) : life * res :=
    if create then
      (mkLife (s_aot s) false None (S (s_mid s)) [] (s_counter s) [] [] (s_committed s) (s_trackers s) (s_ntr s) (s_jd s) (s_runs s), ROk)
    else
      (mkLife (s_aot s) false None (s_mid s) (s_module s) (s_counter s) [] (s_staged s) (s_committed s) (s_trackers s) (s_ntr s) (s_jd s) (s_runs s), RErr).
  (** [clear], mod.rs:554-560, [reset_jit] and [OrcJitState::clear], lib.rs:742-753, 427-439. *)
  Definition clear (s : life) (jd_clear create : bool) : life * res :=
    if negb jd_clear then
      (mkLife (s_aot s) false None (s_mid s) (s_module s) (s_counter s) [] [] [] (s_trackers s) (s_ntr s) (s_jd s) (s_runs s), RErr)
    else if negb create then
      (mkLife (s_aot s) false None (s_mid s) (s_module s) (s_counter s) [] [] [] [] (s_ntr s) [] (s_runs s), RErr)
    else
      (mkLife (s_aot s) false None (S (s_mid s)) [] (s_counter s) [] [] [] [] (s_ntr s) [] (s_runs s), ROk).
  (** [take_last_resource_tracker], lib.rs:804-810. *)
  Definition take_tracker (s : life) : life * res :=
    match rev (s_trackers s) with
    | [] => (s, RTracker None)
    | t :: r =>
        (mkLife (s_aot s) (s_finalized s) (s_builtins s) (s_mid s) (s_module s) (s_counter s) (s_names s) (s_staged s)
                (filter (fun p => negb (snd p =? length r)) (s_committed s)) (rev r) (s_ntr s) (s_jd s) (s_runs s), RTracker (Some t))
    end.
  (** ORC [ResourceTracker::remove] by its owner (worker.rs, [JitCodeBacking::drop]). *)
  Definition drop_tracker (s : life) (t : nat) : life * res :=
    (mkLife (s_aot s) (s_finalized s) (s_builtins s) (s_mid s) (s_module s) (s_counter s) (s_names s) (s_staged s)
            (s_committed s) (s_trackers s) (s_ntr s) (filter (fun p => negb (fst p =? t)) (s_jd s)) (s_runs s), ROk).

  (** The public entry points, mod.rs:446-560. *)
  Definition do_call (s : life) (c : call) : life * res :=
    match c with
    | Translate n c p u b => translate s n c p u b
    | JitFunction id a b c d e f g => jit_function s id a b c d e f g
    | WriteObject a b c d e => write_object s a b c d e
    | FreeFunction id r => free_function s id r
    | ClearIr c => clear_ir s c
    | Clear j c => clear s j c
    | TakeTracker => take_tracker s
    | DropTracker t => drop_tracker s t
    end.
  (** A sequence of calls and its results. *)
  Fixpoint calls (s : life) (l : list call) : life * list res :=
    match l with
    | [] => (s, [])
    | c :: l' => let '(s1, r) := do_call s c in let '(s2, rs) := calls s1 l' in (s2, r :: rs)
    end.
End Life.
Arguments func : clear implicits.
Arguments life : clear implicits.
Arguments call : clear implicits.
Arguments res : clear implicits.
