(** Model of the out-of-process compilation helper (crates/revmc-runtime/src/runtime/out_of_process.rs) and of
    pausing it (mod.rs:365-423, backend.rs:225-241, worker.rs:283-344), as a transition system whose steps are the
    atomic actions of the threads involved: callers of [pause]/[resume], the backend thread, the worker threads
    (one per job), the reader thread of each helper and the helper processes themselves. Any action may be taken
    whenever it is possible, so all interleavings are covered. Time is a counter.

    Simplified: job ids are unbounded (u64 in the code); one timeout for all jobs; the bytes on the pipes are
    messages; statistics and log output are left out; a helper may die at any moment (crash, kill, exit); what a
    dead helper left in the pipe may still be read. *)
From Coq Require Export List ZArith Bool Arith Lia.
Export ListNotations.

Section Helper.
  (** Object code (or compile error) a correct helper answers for a job; jobs are numbered. *)
  Context {R : Type}.
  Variable compiled : nat -> R.
  (** [jit_timeout] and the capacity of the command channel (config.rs). *)
  Variable timeout cap : nat.

  (** Commands in the backend's channel, backend.rs:125-145; [CStop]/[CCont] are Pause/Resume. *)
  Inductive cmd := CStop | CCont | COther.
  (** Requests and responses, out_of_process.rs:511-547. *)
  Inductive msg := MJob (id job : nat) | MPause (id : nat) | MResume.
  Inductive resp := OJob (id : nat) (r : R) | OPaused (id : nat).

  (** [HelperProcessInner] (out_of_process.rs:168-180) with its child process and reader thread. [p_in], [p_out]:
      the pipes; [p_work]: requests in the helper's thread pool; [p_ip]: [HelperPauseState]; [p_stopped]: SIGSTOP. *)
  Record proc := mkProc {
    p_alive : bool; p_stopped : bool; p_next : nat;
    p_pending : list (nat * nat);     (* id, job *)
    p_acks : list nat;                (* pending_pauses *)
    p_in : list msg; p_work : list (nat * nat); p_ip : bool; p_out : list resp; p_reader : bool
  }.
  (** A helper just spawned, out_of_process.rs:183-262. *)
  Definition new_proc : proc := mkProc true false 0 [] [] [] [] false [] true.

  (** The ways [compile] fails, out_of_process.rs:105-143, 264-308. *)
  Inductive err := ESpawn | EWrite | ETimeout | EDisc.
  (** Where the worker thread of a job is in [HelperProcess::compile] / [HelperProcessInner::compile]. *)
  Inductive jst :=
  | JNone                           (* not dispatched *)
  | JNew                            (* dispatched *)
  | JHave (g : nat)                 (* holds an Arc of helper g *)
  | JReg (g id : nat)               (* registered in pending *)
  | JWait (g id start : nat)        (* in recv_timeout, since start *)
  | JLate (g id : nat)              (* recv_timeout returned Timeout, not paused *)
  | JErr (g : nat) (e : err)        (* inner compile returned an error *)
  | JDone (r : R + err).
  (** Who holds the slot's mutex ([HelperProcess::inner]). *)
  Inductive lock := LFree | LSpawn (j : nat) | LMade (j g : nat) | LStopping (j g id : nat) | LReady (j g : nat) | LBack (g id : nat).
  (** The backend thread: idle; flag stored, about to lock; pausing. *)
  Inductive bst := BIdle | BStored (v : bool) | BPausing.

  Record state := mkS {
    s_now : nat;
    s_depth : nat;                 (* pause_depth *)
    s_held : nat;                  (* callers whose pause returned and who did not resume yet *)
    s_pp : list bool;              (* callers inside pause; true: will send *)
    s_pr : nat;                    (* callers inside resume about to send *)
    s_started : bool;
    s_queue : list cmd;
    s_dropped : nat;               (* Pause/Resume commands dropped or skipped *)
    s_flag : bool;                 (* HelperProcess::paused *)
    s_bk : bst;
    s_lock : lock;
    s_slot : option nat;
    s_procs : list proc;
    s_jobs : nat -> jst;
    s_chan : nat -> option (R + err)   (* the job's channel *)
  }.
  (** [BackendShared] and [HelperProcess::new], mod.rs:184, out_of_process.rs:101-103. *)
  Definition init : state := mkS 0 0 0 [] 0 false [] 0 false BIdle LFree None [] (fun _ => JNone) (fun _ => None).

  (** One constructor per atomic action; [step] says what each is. *)
  Inductive act :=
  | ATick
  | APauseAdd | APauseSend (i : nat) | AResumeSub | AResumeSend | AStart | AOther
  | AHandle | ABackLock | ABackStop | ACancel
  | ADispatch (j : nat) | AReuse (j : nat) | ASpawn (j : nat) | ASpawnFail | ASpawned | AReadFlag | ASpawnStop | ASetSlot
  | ARegister (j : nat) | AWrite (j : nat) (ok : bool) | ARecv (j : nat) | AExpire (j : nat) | ALate (j : nat) | ADiscard (j : nat)
  | AReadMsg (g : nat) | AFinish (g k : nat) | AReader (g : nat) | AReaderErr (g : nat) | ADie (g : nat).

  (** Map insertion ([jobs], [pending] values by key). *)
  Definition upd {A} (f : nat -> A) (i : nat) (v : A) : nat -> A := fun k => if k =? i then v else f k.
  (** List update and removal (no counterpart in the code: helpers are numbered here, [Arc]s there). *)
  Definition set_nth {A} (l : list A) (i : nat) (v : A) : list A := firstn i l ++ v :: skipn (S i) l.
  Definition remove_nth {A} (l : list A) (i : nat) : list A := firstn i l ++ skipn (S i) l.

  (** Field updates (record syntax only). *)
  Definition set_procs (s : state) v := mkS (s_now s) (s_depth s) (s_held s) (s_pp s) (s_pr s) (s_started s) (s_queue s) (s_dropped s) (s_flag s) (s_bk s) (s_lock s) (s_slot s) v (s_jobs s) (s_chan s).
  Definition set_jobs (s : state) v := mkS (s_now s) (s_depth s) (s_held s) (s_pp s) (s_pr s) (s_started s) (s_queue s) (s_dropped s) (s_flag s) (s_bk s) (s_lock s) (s_slot s) (s_procs s) v (s_chan s).
  Definition set_chan (s : state) v := mkS (s_now s) (s_depth s) (s_held s) (s_pp s) (s_pr s) (s_started s) (s_queue s) (s_dropped s) (s_flag s) (s_bk s) (s_lock s) (s_slot s) (s_procs s) (s_jobs s) v.
  Definition set_lock (s : state) v := mkS (s_now s) (s_depth s) (s_held s) (s_pp s) (s_pr s) (s_started s) (s_queue s) (s_dropped s) (s_flag s) (s_bk s) v (s_slot s) (s_procs s) (s_jobs s) (s_chan s).
  Definition set_slot (s : state) v := mkS (s_now s) (s_depth s) (s_held s) (s_pp s) (s_pr s) (s_started s) (s_queue s) (s_dropped s) (s_flag s) (s_bk s) (s_lock s) v (s_procs s) (s_jobs s) (s_chan s).
  Definition set_bk (s : state) f b := mkS (s_now s) (s_depth s) (s_held s) (s_pp s) (s_pr s) (s_started s) (s_queue s) (s_dropped s) f b (s_lock s) (s_slot s) (s_procs s) (s_jobs s) (s_chan s).
  Definition set_queue (s : state) q d := mkS (s_now s) (s_depth s) (s_held s) (s_pp s) (s_pr s) (s_started s) q d (s_flag s) (s_bk s) (s_lock s) (s_slot s) (s_procs s) (s_jobs s) (s_chan s).
  Definition set_calls (s : state) d h p r := mkS (s_now s) d h p r (s_started s) (s_queue s) (s_dropped s) (s_flag s) (s_bk s) (s_lock s) (s_slot s) (s_procs s) (s_jobs s) (s_chan s).
  Definition set_job (s : state) j v := set_jobs s (upd (s_jobs s) j v).

  (** [try_send_control], mod.rs:411-418. *)
  Definition send_control (s : state) (c : cmd) : state :=
    if negb (s_started s) then set_queue s (s_queue s) (S (s_dropped s))
    else if length (s_queue s) <? cap then set_queue s (s_queue s ++ [c]) (s_dropped s)
    else set_queue s (s_queue s) (S (s_dropped s)).
  (** The request half of [HelperProcessInner::pause] (out_of_process.rs:332-346); a dead child's pipe takes nothing. *)
  Definition pause_request (p : proc) : proc * nat :=
    (mkProc (p_alive p) (p_stopped p) (S (p_next p)) (p_pending p) (p_next p :: p_acks p)
            (if p_alive p then p_in p ++ [MPause (p_next p)] else p_in p) (p_work p) (p_ip p) (p_out p) (p_reader p), p_next p).
  (** Its end: acknowledged or timed out (346-365), then SIGSTOP (367) unless the child has exited (381-387). *)
  Definition pause_stop (p : proc) (id : nat) : proc :=
    mkProc (p_alive p) (if p_alive p then true else p_stopped p) (p_next p) (p_pending p) (filter (fun i => negb (i =? id)) (p_acks p))
           (p_in p) (p_work p) (p_ip p) (p_out p) (p_reader p).
  (** [HelperProcessInner::resume], out_of_process.rs:370-380. *)
  Definition resume_proc (p : proc) : proc :=
    mkProc (p_alive p) (if p_alive p then false else p_stopped p) (p_next p) (p_pending p) (p_acks p)
           (if p_alive p then p_in p ++ [MResume] else p_in p) (p_work p) (p_ip p) (p_out p) (p_reader p).
  (** [kill], out_of_process.rs:310-329, or any other death. *)
  Definition die (p : proc) : proc := mkProc false (p_stopped p) (p_next p) (p_pending p) (p_acks p) (p_in p) [] (p_ip p) (p_out p) (p_reader p).
  (** Field update, and the map operations on [pending] (out_of_process.rs:222-226, 274, 293-299). *)
  Definition set_pending (p : proc) v := mkProc (p_alive p) (p_stopped p) (p_next p) v (p_acks p) (p_in p) (p_work p) (p_ip p) (p_out p) (p_reader p).
  Definition at_proc (s : state) (g : nat) (f : proc -> proc) : state :=
    match nth_error (s_procs s) g with Some p => set_procs s (set_nth (s_procs s) g (f p)) | None => s end.
  Definition find_job (id : nat) (l : list (nat * nat)) : option nat := option_map snd (find (fun p => fst p =? id) l).
  Definition drop_id (id : nat) (l : list (nat * nat)) : list (nat * nat) := filter (fun p => negb (fst p =? id)) l.

  (** The effect of an action; [None] if it is not possible. Citations at each case. *)
  Definition step (s : state) (a : act) : option state :=
    match a with
    | ATick => Some (mkS (S (s_now s)) (s_depth s) (s_held s) (s_pp s) (s_pr s) (s_started s) (s_queue s) (s_dropped s) (s_flag s) (s_bk s) (s_lock s) (s_slot s) (s_procs s) (s_jobs s) (s_chan s))
    (* pause, mod.rs:376-380: fetch_add, then send if it was 0 *)
    | APauseAdd => Some (set_calls s (S (s_depth s)) (s_held s) (s_pp s ++ [s_depth s =? 0]) (s_pr s))
    | APauseSend i =>
        match nth_error (s_pp s) i with
        | Some b => let s1 := set_calls s (s_depth s) (S (s_held s)) (remove_nth (s_pp s) i) (s_pr s) in Some (if b then send_control s1 CStop else s1)
        | None => None
        end
    (* resume, mod.rs:385-397, by a caller who paused before: fetch_update, then send if it was 1 *)
    | AResumeSub =>
        if s_held s =? 0 then None
        else Some (set_calls s (s_depth s - 1) (s_held s - 1) (s_pp s) (if s_depth s =? 1 then S (s_pr s) else s_pr s))
    | AResumeSend => if s_pr s =? 0 then None else Some (send_control (set_calls s (s_depth s) (s_held s) (s_pp s) (s_pr s - 1)) CCont)
    (* the backend thread is spawned on first enable, mod.rs:425-480 *)
    | AStart => Some (mkS (s_now s) (s_depth s) (s_held s) (s_pp s) (s_pr s) true (s_queue s) (s_dropped s) (s_flag s) (s_bk s) (s_lock s) (s_slot s) (s_procs s) (s_jobs s) (s_chan s))
    (* any other command *)
    | AOther => if s_started s && (length (s_queue s) <? cap) then Some (set_queue s (s_queue s ++ [COther]) (s_dropped s)) else None
    (* BackendState::handle, backend.rs:228-240; HelperProcess::pause/resume store the flag, out_of_process.rs:151-165 *)
    | AHandle =>
        match s_bk s, s_queue s with
        | BIdle, CStop :: q => Some (set_bk (set_queue s q (s_dropped s)) true (BStored true))
        | BIdle, CCont :: q => Some (set_bk (set_queue s q (s_dropped s)) false (BStored false))
        | BIdle, COther :: q => Some (set_queue s q (s_dropped s))
        | _, _ => None
        end
    (* … then lock the slot and act on the helper in it *)
    | ABackLock =>
        match s_bk s, s_lock s with
        | BStored v, LFree =>
            match s_slot s with
            | None => Some (set_bk s (s_flag s) BIdle)
            | Some g =>
                match nth_error (s_procs s) g with
                | None => None
                | Some p =>
                    if v then let '(p', id) := pause_request p in Some (set_lock (set_bk (set_procs s (set_nth (s_procs s) g p')) (s_flag s) BPausing) (LBack g id))
                    else Some (set_bk (set_procs s (set_nth (s_procs s) g (resume_proc p))) (s_flag s) BIdle)
                end
            end
        | _, _ => None
        end
    | ABackStop =>
        match s_lock s with
        | LBack g id => Some (set_lock (set_bk (at_proc s g (fun p => pause_stop p id)) (s_flag s) BIdle) LFree)
        | _ => None
        end
    (* cancel_in_flight, out_of_process.rs:145-149, by the backend thread *)
    | ACancel =>
        match s_bk s, s_lock s, s_slot s with
        | BIdle, LFree, Some g => Some (at_proc (set_slot s None) g die)
        | _, _, _ => None
        end
    (* HelperProcess::compile, out_of_process.rs:105-143 *)
    | ADispatch j => match s_jobs s j with JNone => Some (set_job s j JNew) | _ => None end
    | AReuse j => match s_jobs s j, s_lock s, s_slot s with JNew, LFree, Some g => Some (set_job s j (JHave g)) | _, _, _ => None end
    | ASpawn j => match s_jobs s j, s_lock s with JNew, LFree => Some (set_lock s (LSpawn j)) | _, _ => None end
    | ASpawnFail => match s_lock s with LSpawn j => Some (set_lock (set_job s j (JDone (inr ESpawn))) LFree) | _ => None end
    | ASpawned => match s_lock s with LSpawn j => Some (set_lock (set_procs s (s_procs s ++ [new_proc])) (LMade j (length (s_procs s)))) | _ => None end
    | AReadFlag =>
        match s_lock s with
        | LMade j g =>
            if s_flag s then
              match nth_error (s_procs s) g with
              | Some p => let '(p', id) := pause_request p in Some (set_lock (set_procs s (set_nth (s_procs s) g p')) (LStopping j g id))
              | None => None
              end
            else Some (set_lock s (LReady j g))
        | _ => None
        end
    | ASpawnStop => match s_lock s with LStopping j g id => Some (set_lock (at_proc s g (fun p => pause_stop p id)) (LReady j g)) | _ => None end
    | ASetSlot => match s_lock s with LReady j g => Some (set_lock (set_slot (set_job s j (JHave g)) (Some g)) LFree) | _ => None end
    (* HelperProcessInner::compile, out_of_process.rs:264-308 *)
    | ARegister j =>
        match s_jobs s j with
        | JHave g =>
            match nth_error (s_procs s) g with
            | Some p =>
                Some (set_job (set_procs s (set_nth (s_procs s) g
                       (mkProc (p_alive p) (p_stopped p) (S (p_next p)) ((p_next p, j) :: p_pending p) (p_acks p) (p_in p) (p_work p) (p_ip p) (p_out p) (p_reader p))))
                       j (JReg g (p_next p)))
            | None => None
            end
        | _ => None
        end
    | AWrite j ok =>
        match s_jobs s j with
        | JReg g id =>
            match nth_error (s_procs s) g with
            | Some p =>
                if ok then
                  Some (set_job (set_procs s (set_nth (s_procs s) g
                         (mkProc (p_alive p) (p_stopped p) (p_next p) (p_pending p) (p_acks p) (if p_alive p then p_in p ++ [MJob id j] else p_in p) (p_work p) (p_ip p) (p_out p) (p_reader p))))
                         j (JWait g id (s_now s)))
                else Some (set_job (set_procs s (set_nth (s_procs s) g (set_pending p (drop_id id (p_pending p))))) j (JErr g EWrite))
            | None => None
            end
        | _ => None
        end
    (* rx.recv_timeout, out_of_process.rs:281-306 *)
    | ARecv j =>
        match s_jobs s j, s_chan s j with
        | JWait g id _, Some (inl r) => Some (set_job s j (JDone (inl r)))
        | JWait g id _, Some (inr e) => Some (set_job s j (JErr g e))
        | _, _ => None
        end
    | AExpire j =>
        match s_jobs s j, s_chan s j with
        | JWait g id start, None =>
            if start + timeout <=? s_now s then Some (set_job s j (if s_flag s then JWait g id (s_now s) else JLate g id)) else None
        | _, _ => None
        end
    | ALate j =>
        match s_jobs s j with
        | JLate g id => Some (set_job (at_proc s g (fun p => die (set_pending p (drop_id id (p_pending p))))) j (JErr g ETimeout))
        | _ => None
        end
    (* discard the helper if it is still the current one, out_of_process.rs:132-142 *)
    | ADiscard j =>
        match s_jobs s j, s_lock s with
        | JErr g e, LFree =>
            let s1 := match s_slot s with Some g' => if g' =? g then set_slot s None else s | None => s end in
            Some (set_job s1 j (JDone (inr e)))
        | _, _ => None
        end
    (* run_jit_helper_stdio, out_of_process.rs:668-722: the main thread reads a request *)
    | AReadMsg g =>
        match nth_error (s_procs s) g with
        | Some p =>
            if p_alive p && negb (p_stopped p) then
              match p_in p with
              | [] => None
              | MJob id j :: l => Some (set_procs s (set_nth (s_procs s) g (mkProc true false (p_next p) (p_pending p) (p_acks p) l (p_work p ++ [(id, j)]) (p_ip p) (p_out p) (p_reader p))))
              | MPause id :: l => Some (set_procs s (set_nth (s_procs s) g (mkProc true false (p_next p) (p_pending p) (p_acks p) l (p_work p) true (p_out p ++ [OPaused id]) (p_reader p))))
              | MResume :: l => Some (set_procs s (set_nth (s_procs s) g (mkProc true false (p_next p) (p_pending p) (p_acks p) l (p_work p) false (p_out p) (p_reader p))))
              end
            else None
        | None => None
        end
    (* a pool thread finishes, waits until resumed and writes the result, out_of_process.rs:690-706 *)
    | AFinish g k =>
        match nth_error (s_procs s) g with
        | Some p =>
            if p_alive p && negb (p_stopped p) && negb (p_ip p) then
              match nth_error (p_work p) k with
              | Some (id, j) => Some (set_procs s (set_nth (s_procs s) g (mkProc true false (p_next p) (p_pending p) (p_acks p) (p_in p) (remove_nth (p_work p) k) false (p_out p ++ [OJob id (compiled j)]) (p_reader p))))
              | None => None
              end
            else None
        | None => None
        end
    (* the reader thread, out_of_process.rs:213-241 *)
    | AReader g =>
        match nth_error (s_procs s) g with
        | Some p =>
            if p_reader p then
              match p_out p with
              | [] => None
              | OPaused id :: l => Some (set_procs s (set_nth (s_procs s) g (mkProc (p_alive p) (p_stopped p) (p_next p) (p_pending p) (filter (fun i => negb (i =? id)) (p_acks p)) (p_in p) (p_work p) (p_ip p) l (p_reader p))))
              | OJob id r :: l =>
                  let s1 := set_procs s (set_nth (s_procs s) g (mkProc (p_alive p) (p_stopped p) (p_next p) (drop_id id (p_pending p)) (p_acks p) (p_in p) (p_work p) (p_ip p) l (p_reader p))) in
                  match find_job id (p_pending p) with
                  | Some j => Some (set_chan s1 (upd (s_chan s1) j (Some (inl r))))
                  | None => Some s1
                  end
              end
            else None
        | None => None
        end
    | AReaderErr g =>
        match nth_error (s_procs s) g with
        | Some p =>
            if p_reader p then
              Some (set_chan (set_procs s (set_nth (s_procs s) g (mkProc (p_alive p) (p_stopped p) (p_next p) [] [] (p_in p) (p_work p) (p_ip p) (p_out p) false)))
                     (fun j => if existsb (fun q => snd q =? j) (p_pending p) then Some (inr EDisc) else s_chan s j))
            else None
        | None => None
        end
    | ADie g => match nth_error (s_procs s) g with Some p => if p_alive p then Some (set_procs s (set_nth (s_procs s) g (die p))) else None | None => None end
    end.
  (** A sequence of actions. *)
  Fixpoint run (s : state) (l : list act) : option state :=
    match l with [] => Some s | a :: l' => match step s a with Some s1 => run s1 l' | None => None end end.
End Helper.
Arguments state : clear implicits.
Arguments mkS {R}.
