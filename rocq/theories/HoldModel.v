(** Model of the memory behind the published programs (C38): reference-counted program objects, what backs
    them (JIT memory, or a shared library mapped from a file), the files of the artifact store, and the
    references callers hold. It runs alongside the runtime model: each step of [act] has its effect here.
    File names are relative to /repo/crates/revmc-runtime/src/runtime/.

    Simplifications. A file is named by its artifact key (distinct keys have distinct paths: C37). The
    `Z` of an artifact key stands for the pair (backend, level). The contents of a mapped library are
    those of the file it was mapped from, at all times: whether a process sees later writes to a mapped
    file is up to the operating system, so this is the pessimistic reading. Which handles the
    dynamic linker shares is left out: a library stays mapped while some program object refers to it. *)
From Verif Require Export RuntimeModel.
Open Scope Z_scope.

(** api.rs:105-113 `ProgramBacking`: the code owned by a JIT resource tracker, or a loaded library, here the
    inode it was mapped from. *)
Inductive backing := BJit (f : func) | BLib (i : nat).

Record mem := mkMem {
  (** Names of the store's directory. *)
  m_dir : list (akey * nat);
  (** File contents by inode; [None]: incomplete. *)
  m_data : list (nat * option func);
  (** Next inode. *)
  m_inodes : nat;
  (** Live `Arc<CompiledProgram>`s (mod.rs:84): backing and number of references. *)
  m_objs : list (nat * (backing * nat));
  (** Next object. *)
  m_next : nat;
  (** The object behind each entry of the resident map. *)
  m_res : list (key * nat);
  (** References held by callers, with (ghost) the program as it was handed out. *)
  m_held : list (nat * program) }.

Definition oget {V} : nat -> list (nat * V) -> option V := kget Nat.eqb.
Definition oset {V} : nat -> V -> list (nat * V) -> list (nat * V) := kset Nat.eqb.
Definition odel {V} : nat -> list (nat * V) -> list (nat * V) := kdel Nat.eqb.
Definition aget {V} : akey -> list (akey * V) -> option V := kget akey_eqb.
Definition aset {V} : akey -> V -> list (akey * V) -> list (akey * V) := kset akey_eqb.

(** Field updates (no source counterpart). *)
Definition set_files (d : list (akey * nat)) (c : list (nat * option func)) (n : nat) (m : mem) : mem := mkMem d c n (m_objs m) (m_next m) (m_res m) (m_held m).
Definition set_objs (v : list (nat * (backing * nat))) (m : mem) : mem := mkMem (m_dir m) (m_data m) (m_inodes m) v (m_next m) (m_res m) (m_held m).
Definition set_res (v : list (key * nat)) (m : mem) : mem := mkMem (m_dir m) (m_data m) (m_inodes m) (m_objs m) (m_next m) v (m_held m).
Definition set_held (v : list (nat * program)) (m : mem) : mem := mkMem (m_dir m) (m_data m) (m_inodes m) (m_objs m) (m_next m) (m_res m) v.
Definition set_mnext (v : nat) (m : mem) : mem := mkMem (m_dir m) (m_data m) (m_inodes m) (m_objs m) v (m_res m) (m_held m).

(** `Arc::clone` and the drop of an `Arc`: the last drop frees the object and with it its backing
    (api.rs:42-52, 115-130; JitCodeBacking's `Drop`). *)
Definition retain (o : nat) (m : mem) : mem :=
  match oget o (m_objs m) with Some (b, n) => set_objs (oset o (b, S n) (m_objs m)) m | None => m end.
Definition release (o : nat) (m : mem) : mem :=
  match oget o (m_objs m) with
  | Some (b, n) => set_objs (if (n <=? 1)%nat then odel o (m_objs m) else oset o (b, (n - 1)%nat) (m_objs m)) m
  | None => m
  end.
Definition release_opt (o : option nat) (m : mem) : mem := match o with Some o => release o m | None => m end.

(** backend.rs:484-487 `insert_resident` of a new `Arc::new(program)`: the map drops what it replaces. *)
Definition m_insert (k : key) (b : backing) (m : mem) : mem :=
  let o := m_next m in
  release_opt (get k (m_res m)) (set_res (set k o (m_res m)) (set_mnext (S o) (set_objs (oset o (b, 1%nat) (m_objs m)) m))).
(** backend.rs:489-492 `remove_resident`. *)
Definition m_remove (k : key) (m : mem) : mem := release_opt (get k (m_res m)) (set_res (del k (m_res m)) m).
(** backend.rs:453 `resident.clear()`. *)
Definition m_clear (m : mem) : mem := fold_left (fun m k => m_remove k m) (map fst (m_res m)) m.
(** storage.rs:145 `fs::write`: an existing file is truncated and rewritten in place. *)
Definition m_write (a : akey) (d : option func) (m : mem) : mem :=
  match aget a (m_dir m) with
  | Some i => set_files (m_dir m) (oset i d (m_data m)) (m_inodes m) m
  | None => set_files (aset a (m_inodes m) (m_dir m)) (oset (m_inodes m) d (m_data m)) (S (m_inodes m)) m
  end.
(** storage.rs:158-165 `clear`: the indexed files are unlinked, mapped inodes live on. *)
Definition m_unlink (st : list (akey * func)) (m : mem) : mem :=
  set_files (filter (fun p => negb (existsb (akey_eqb (fst p)) (map fst st))) (m_dir m)) (m_data m) (m_inodes m) m.
(** `dlopen` of the artifact's path, then `insert_resident` (backend.rs:407-427, 652-671). *)
Definition m_load (k : key) (a : akey) (m : mem) : mem :=
  match aget a (m_dir m) with Some i => m_insert k (BLib i) m | None => m end.

(** backend.rs:294-331: the path of [try_admit] that loads a persisted artifact. *)
Definition m_admit (c : config) (io : bool) (kd : kind) (k : key) (code : list Z) (md : mode) (s : state) (m : mem) : mem :=
  if has k (s_resident s) then m
  else if negb (should_compile c code) then m
  else if match md with Observed => negb (has k (s_entries s)) && (c_maxpending c * 10 <=? length (s_entries s))%nat | Explicit => false end then m
  else match kd, s_store s with
       | Aot, Some st => match aget (k, c_aot_opt c) st with Some _ => if io then m_load k (k, c_aot_opt c) m else m | None => m end
       | _, _ => m
       end.
Fixpoint m_prepare (c : config) (io : nat -> bool) (now : Z) (n : nat) (reqs : list (key * list Z)) (s : state) (m : mem) : mem :=
  match reqs with
  | [] => m
  | (k, code) :: reqs =>
      m_prepare c io now (S n) reqs (try_admit c (io n) now Aot k code None Explicit s) (m_admit c (io n) Aot k code Explicit s m)
  end.
(** backend.rs:494-717. [io 3]: a failing write had already truncated the file. *)
Definition m_result (c : config) (io : nat -> bool) (j : job) (o : outcome) (s : state) (m : mem) : mem :=
  if negb (j_gen j =? s_gen s)%nat then m
  else
    let k := j_key j in
    match o with
    | OJit => m_insert k (BJit (job_func j)) m
    | OObject => if io 2%nat then m_insert k (BJit (job_func j)) m else m
    | OErr => m
    | OAot =>
        match s_store s with
        | None => m
        | Some _ =>
            if io 0%nat then
              let m := m_write (k, c_aot_opt c) (Some (job_func j)) m in
              if io 1%nat then m_load k (k, c_aot_opt c) m else m
            else if io 3%nat then m_write (k, c_aot_opt c) None m else m
        end
    end.
(** A caller receives `program.clone()` (mod.rs:225-229, 243-246). *)
Definition m_hand (k : key) (p : program) (m : mem) : mem :=
  match get k (m_res m) with
  | Some o => set_held ((o, p) :: m_held m) (retain o m)
  | None => m
  end.

(** The effect of one step of the runtime, from [s] to [s']. *)
Definition m_act (c : config) (a : action) (s s' : state) (m : mem) : mem :=
  match a with
  | ALookup busy k code => match lookup_decide c busy k code s with Compiled p => m_hand k p m | _ => m end
  | AGetTracked k => match get k (s_resident s) with Some p => m_hand k p m | None => m end
  | BCmd o =>
      match s_cmds s with
      | CompileJit k code _ :: q => m_admit c (o_io o 0%nat) (if c_aot c then Aot else Jit) k code Explicit (set_cmds q s) m
      | PrepareAot reqs :: q => m_prepare c (o_io o) (o_now o) 0 reqs (set_cmds q s) m
      | ClearResident :: _ => m_clear m
      | ClearPersisted :: _ => match s_store s with Some st => if o_io o 0%nat then m_unlink st m else m | None => m end
      | ClearAll :: _ => match s_store s with Some st => if o_io o 0%nat then m_unlink st (m_clear m) else m_clear m | None => m_clear m end
      | _ => m
      end
  | BEvent o =>
      match s_events s with
      | ev :: q => match ev_code ev with
                   | [] => m
                   | _ => m_admit c (o_io o 0%nat) (if c_aot c then Aot else Jit) (ev_key ev) (ev_code ev) Observed (set_events q s) m
                   end
      | [] => m
      end
  | BResult n o =>
      match nth_error (s_inflight s) n with
      | Some j => match j_phase j with Done oc => m_result c (o_io o) j oc s m | _ => m end
      | None => m
      end
  (* the evicted keys (backend.rs:719-791) *)
  | BSweep _ _ _ => fold_left (fun m k => m_remove k m) (filter (fun k => negb (has k (s_resident s'))) (map fst (m_res m))) m
  | _ => m
  end.

(** A step of the whole: of the runtime, or a caller drops the n-th reference it holds. *)
Inductive haction := HAct (a : action) | HDrop (n : nat).
Definition hact (c : config) (a : haction) (x : state * mem) : option (state * mem) :=
  match a with
  | HAct a => match act c a (fst x) with Some s' => Some (s', m_act c a (fst x) s' (snd x)) | None => None end
  | HDrop n =>
      match nth_error (m_held (snd x)) n with
      | Some (o, _) => Some (fst x, release o (set_held (del_nth n (m_held (snd x))) (snd x)))
      | None => None
      end
  end.
Inductive hruns (c : config) : state * mem -> list haction -> state * mem -> Prop :=
| hruns_nil x : hruns c x [] x
| hruns_step x a x1 l x2 : (forall b, a = HAct b -> fair_action b) -> hact c a x = Some x1 -> hruns c x1 l x2 -> hruns c x (a :: l) x2.

(** mod.rs:461-473, 493-542: the start. The store holds the artifacts [st] (one file each); [pre] are the
    artifacts that were preloaded (C39), each mapped once. *)
Definition m_files (st : list (akey * func)) : mem :=
  fold_left (fun m p => m_write (fst p) (Some (snd p)) m) st (mkMem [] [] 0 [] 0 [] []).
Definition m_start (pre st : list (akey * func)) : mem := fold_left (fun m p => m_load (fst (fst p)) (fst p) m) pre (m_files st).
Definition pre_programs (pre : list (akey * func)) : list (key * program) := map (fun p => (fst (fst p), mkProg (fst (fst p)) Aot (snd p))) pre.
Definition h_start (now : Z) (pre : list (akey * func)) (st : option (list (akey * func))) (en : bool) : state * mem :=
  (start now (pre_programs pre) st en, m_start pre (match st with Some st => st | None => [] end)).
