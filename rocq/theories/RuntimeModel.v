(** Model of the runtime backend (crates/revmc-runtime/src/runtime/{mod,backend,worker,stats,config}.rs):
    the backend thread, its worker pool, the callers, and everything they share, as one transition
    system. An [action] is one atomic step of a caller, of the backend thread or of a worker, together
    with every choice the environment makes in it (time, I/O results, memory readings, hash-map
    iteration order); [act] executes it. Executions are arbitrary interleavings ([runs]).

    Simplifications. Each backend handler is one step (lookups that read the concurrent map in the
    middle of one see the state before or after it). Statistics are unbounded. The result channel is
    unordered (a superset of the real orders). Callbacks, logging and timings are left out. The compiled
    function is represented by what it was compiled from ([func]). File names here are relative to
    /repo/crates/revmc-runtime/src/runtime/. *)
From Coq Require Export ZArith List Bool Arith Lia Permutation.
Export ListNotations.
Open Scope Z_scope.

(** storage.rs:10-17 `RuntimeCacheKey`: (code hash, hardfork). *)
Definition key : Type := (Z * Z)%type.
Definition key_eqb (a b : key) : bool := (fst a =? fst b) && (snd a =? snd b).
(** storage.rs:19-30 `ArtifactKey`, with the backend field always `Llvm` as the backend thread sets it
    (backend.rs:399-403, 611-615): (runtime key, optimization level). *)
Definition akey : Type := (key * Z)%type.
Definition akey_eqb (a b : akey) : bool := key_eqb (fst a) (fst b) && (snd a =? snd b).

(** Hash maps keyed by [K]: association lists, newest first. *)
Section Map.
  Context {K V : Type} (eqb : K -> K -> bool).
  Fixpoint kget (k : K) (m : list (K * V)) : option V :=
    match m with
    | [] => None
    | (k', v) :: m => if eqb k k' then Some v else kget k m
    end.
  Definition kdel (k : K) (m : list (K * V)) : list (K * V) := filter (fun p => negb (eqb k (fst p))) m.
  Definition kset (k : K) (v : V) (m : list (K * V)) : list (K * V) := (k, v) :: kdel k m.
End Map.
Notation get := (kget key_eqb).
Notation del := (kdel key_eqb).
Notation set := (kset key_eqb).
Definition has {V} (k : key) (m : list (key * V)) : bool := match get k m with Some _ => true | None => false end.

(** config.rs:150-157 `CompilationKind`, api.rs:96-103 `ProgramKind`. *)
Inductive kind := Jit | Aot.
(** The machine code behind an `EvmCompilerFn`: bytecode and hardfork it was compiled for and the job
    of this process that produced it ([None]: an artifact found in the store). *)
Record func := mkFunc { f_code : list Z; f_spec : Z; f_job : option nat }.
(** api.rs:42-52 `CompiledProgram`. *)
Record program := mkProg { p_key : key; p_kind : kind; p_func : func }.

(** backend.rs:179-186 `EntryPhase`; backend.rs:165-177 `EntryState`. A notifier is the number of the
    synchronous caller or [None] (worker.rs:47-66 `SyncNotifier`). *)
Inductive phase := Cold | Working.
Record entry := mkEntry { e_hot : Z; e_phase : phase; e_code : list Z; e_seen : Z; e_pend : list (option nat) }.

(** worker.rs:68-86 `CompileJob`, then worker.rs:88-104 `WorkerResult`: the job keeps its identity,
    key, notifier and generation (worker.rs:437-445, 490-498). *)
Inductive outcome := OJit | OAot | OObject | OErr.
Inductive jphase := Queued | Running | Done (o : outcome).
Record job := mkJob { j_id : nat; j_kind : kind; j_key : key; j_code : list Z; j_nid : option nat; j_gen : nat; j_phase : jphase }.

(** api.rs:11-18 `LookupRequest` as it travels in the event queue: a hit has its code cleared
    (mod.rs:228). [ev_id] and [ev_hit] (the decision the lookup returned) are ghosts. *)
Record event := mkEvent { ev_id : nat; ev_hit : bool; ev_key : key; ev_code : list Z }.

(** backend.rs:124-145 `Command`, without Pause/Resume (HelperModel.v). *)
Inductive cmd :=
| CompileJit (k : key) (code : list Z) (nid : option nat)
| PrepareAot (reqs : list (key * list Z))
| ClearResident | ClearPersisted | ClearAll | Shutdown.

(** config.rs:229-334 `RuntimeTuning` (the fields used), backend.rs:215-216 `aot`,
    config.rs:159-167 `JitMode`. Durations and instants are integers. *)
Record config := mkConfig {
  c_cap : nat;             (* channel_capacity *)
  c_hot : Z;               (* jit_hot_threshold *)
  c_maxlen : Z;            (* jit_max_bytecode_len *)
  c_maxpending : nat;      (* jit_max_pending_jobs *)
  c_workers : nat;         (* jit_worker_count *)
  c_qcap : nat;            (* jit_worker_queue_capacity *)
  c_budget : Z;            (* resident_code_cache_bytes *)
  c_idle : option Z;       (* idle_evict_duration *)
  c_interval : Z;          (* eviction_sweep_interval *)
  c_aot_opt : Z;           (* aot_opt_level *)
  c_aot : bool;            (* aot *)
  c_oop : bool }.          (* jit_mode == OutOfProcess *)

(** config.rs:336-347 `should_compile`. *)
Definition should_compile (c : config) (code : list Z) : bool :=
  match code with
  | [] => false
  | _ => negb ((c_maxlen c >? 0) && (Z.of_nat (length code) >? c_maxlen c))
  end.

(** mod.rs:74-123 `BackendShared`/`BackendInner`, backend.rs:197-225 `BackendState`, worker.rs:184-200
    `WorkerPool`, with ghosts. *)
Record state := mkState {
  (** `BackendShared::resident` (mod.rs:86): the published programs. *)
  s_resident : list (key * program);
  (** `BackendState::resident_meta` (backend.rs:202): last hit time per resident key. *)
  s_meta : list (key * Z);
  (** `BackendState::entries` (backend.rs:204). *)
  s_entries : list (key * entry);
  (** `BackendState::store` (backend.rs:212): the configured artifact store, if any. *)
  s_store : option (list (akey * func));
  (** `BackendState::pending_jobs` (backend.rs:218). *)
  s_pending : nat;
  (** `BackendState::generation` (backend.rs:220). *)
  s_gen : nat;
  (** `BackendState::last_sweep` (backend.rs:222). *)
  s_last_sweep : Z;
  (** Jobs handed to the pool whose result has not been processed (worker.rs:255-266, backend.rs:860-865). *)
  s_inflight : list job;
  (** `WorkerPool::queued` (worker.rs:195). *)
  s_queued : nat;
  (** `BackendShared::events` (mod.rs:89). *)
  s_events : list event;
  (** The bounded command channel (mod.rs:114). *)
  s_cmds : list cmd;
  (** `BackendInner::enabled` (mod.rs:103). *)
  s_enabled : bool;
  (** The backend thread has left its loop (backend.rs:848-875). *)
  s_halted : bool;
  (** Lookups that have read the resident map and not yet pushed their event (mod.rs:225-234). *)
  s_looking : list event;
  (** `RuntimeStats::lookup_hits` (stats.rs:9). *)
  s_hits : nat;
  (** `RuntimeStats::lookup_misses`. *)
  s_misses : nat;
  (** `RuntimeStats::events_dropped`. *)
  s_dropped : nat;
  (** `RuntimeStats::evictions`. *)
  s_evicted : nat;
  (** `RuntimeStats::compilations_dispatched`. *)
  s_dispatched : nat;
  (** `RuntimeStats::compilations_succeeded`. *)
  s_succeeded : nat;
  (** `RuntimeStats::compilations_failed`. *)
  s_failed : nat;
  (** Ghost: synchronous callers whose notifier fired (worker.rs:61-65), latest first. *)
  s_notified : list nat;
  (** Ghost: synchronous callers whose notifier was dropped unfired (their `recv` fails, mod.rs:314). *)
  s_lost : list nat;
  (** Ghost: number of synchronous requests issued; the notifier of the n-th is n. *)
  s_next_sync : nat;
  (** Ghost: number of jobs dispatched; identifies the machine code each produces. *)
  s_next_job : nat;
  (** Ghost: number of lookups that consulted the resident map. *)
  s_next_look : nat;
  (** Ghost: lookup events processed by the backend. *)
  s_g_processed : list event;
  (** Ghost: lookup events dropped at a full queue. *)
  s_g_overflow : list event;
  (** Ghost: lookup events thrown away by a clear. *)
  s_g_discarded : list event;
  (** Ghost: answers of `get_compiled_tracked`. *)
  s_g_tracked : list bool;
  (** Ghost: the key of every synchronous request, in order of issue. *)
  s_requests : list key;
  (** Ghost: bytecode handed in by callers, with the key it was handed in under. *)
  s_supplied : list (key * list Z) }.

(** Field updates (no source counterpart). *)
Definition set_resident (v : list (key * program)) (s : state) : state := mkState v (s_meta s) (s_entries s) (s_store s) (s_pending s) (s_gen s) (s_last_sweep s) (s_inflight s) (s_queued s) (s_events s) (s_cmds s) (s_enabled s) (s_halted s) (s_looking s) (s_hits s) (s_misses s) (s_dropped s) (s_evicted s) (s_dispatched s) (s_succeeded s) (s_failed s) (s_notified s) (s_lost s) (s_next_sync s) (s_next_job s) (s_next_look s) (s_g_processed s) (s_g_overflow s) (s_g_discarded s) (s_g_tracked s) (s_requests s) (s_supplied s).
Definition set_meta (v : list (key * Z)) (s : state) : state := mkState (s_resident s) v (s_entries s) (s_store s) (s_pending s) (s_gen s) (s_last_sweep s) (s_inflight s) (s_queued s) (s_events s) (s_cmds s) (s_enabled s) (s_halted s) (s_looking s) (s_hits s) (s_misses s) (s_dropped s) (s_evicted s) (s_dispatched s) (s_succeeded s) (s_failed s) (s_notified s) (s_lost s) (s_next_sync s) (s_next_job s) (s_next_look s) (s_g_processed s) (s_g_overflow s) (s_g_discarded s) (s_g_tracked s) (s_requests s) (s_supplied s).
Definition set_entries (v : list (key * entry)) (s : state) : state := mkState (s_resident s) (s_meta s) v (s_store s) (s_pending s) (s_gen s) (s_last_sweep s) (s_inflight s) (s_queued s) (s_events s) (s_cmds s) (s_enabled s) (s_halted s) (s_looking s) (s_hits s) (s_misses s) (s_dropped s) (s_evicted s) (s_dispatched s) (s_succeeded s) (s_failed s) (s_notified s) (s_lost s) (s_next_sync s) (s_next_job s) (s_next_look s) (s_g_processed s) (s_g_overflow s) (s_g_discarded s) (s_g_tracked s) (s_requests s) (s_supplied s).
Definition set_store (v : option (list (akey * func))) (s : state) : state := mkState (s_resident s) (s_meta s) (s_entries s) v (s_pending s) (s_gen s) (s_last_sweep s) (s_inflight s) (s_queued s) (s_events s) (s_cmds s) (s_enabled s) (s_halted s) (s_looking s) (s_hits s) (s_misses s) (s_dropped s) (s_evicted s) (s_dispatched s) (s_succeeded s) (s_failed s) (s_notified s) (s_lost s) (s_next_sync s) (s_next_job s) (s_next_look s) (s_g_processed s) (s_g_overflow s) (s_g_discarded s) (s_g_tracked s) (s_requests s) (s_supplied s).
Definition set_pending (v : nat) (s : state) : state := mkState (s_resident s) (s_meta s) (s_entries s) (s_store s) v (s_gen s) (s_last_sweep s) (s_inflight s) (s_queued s) (s_events s) (s_cmds s) (s_enabled s) (s_halted s) (s_looking s) (s_hits s) (s_misses s) (s_dropped s) (s_evicted s) (s_dispatched s) (s_succeeded s) (s_failed s) (s_notified s) (s_lost s) (s_next_sync s) (s_next_job s) (s_next_look s) (s_g_processed s) (s_g_overflow s) (s_g_discarded s) (s_g_tracked s) (s_requests s) (s_supplied s).
Definition set_gen (v : nat) (s : state) : state := mkState (s_resident s) (s_meta s) (s_entries s) (s_store s) (s_pending s) v (s_last_sweep s) (s_inflight s) (s_queued s) (s_events s) (s_cmds s) (s_enabled s) (s_halted s) (s_looking s) (s_hits s) (s_misses s) (s_dropped s) (s_evicted s) (s_dispatched s) (s_succeeded s) (s_failed s) (s_notified s) (s_lost s) (s_next_sync s) (s_next_job s) (s_next_look s) (s_g_processed s) (s_g_overflow s) (s_g_discarded s) (s_g_tracked s) (s_requests s) (s_supplied s).
Definition set_last_sweep (v : Z) (s : state) : state := mkState (s_resident s) (s_meta s) (s_entries s) (s_store s) (s_pending s) (s_gen s) v (s_inflight s) (s_queued s) (s_events s) (s_cmds s) (s_enabled s) (s_halted s) (s_looking s) (s_hits s) (s_misses s) (s_dropped s) (s_evicted s) (s_dispatched s) (s_succeeded s) (s_failed s) (s_notified s) (s_lost s) (s_next_sync s) (s_next_job s) (s_next_look s) (s_g_processed s) (s_g_overflow s) (s_g_discarded s) (s_g_tracked s) (s_requests s) (s_supplied s).
Definition set_inflight (v : list job) (s : state) : state := mkState (s_resident s) (s_meta s) (s_entries s) (s_store s) (s_pending s) (s_gen s) (s_last_sweep s) v (s_queued s) (s_events s) (s_cmds s) (s_enabled s) (s_halted s) (s_looking s) (s_hits s) (s_misses s) (s_dropped s) (s_evicted s) (s_dispatched s) (s_succeeded s) (s_failed s) (s_notified s) (s_lost s) (s_next_sync s) (s_next_job s) (s_next_look s) (s_g_processed s) (s_g_overflow s) (s_g_discarded s) (s_g_tracked s) (s_requests s) (s_supplied s).
Definition set_queued (v : nat) (s : state) : state := mkState (s_resident s) (s_meta s) (s_entries s) (s_store s) (s_pending s) (s_gen s) (s_last_sweep s) (s_inflight s) v (s_events s) (s_cmds s) (s_enabled s) (s_halted s) (s_looking s) (s_hits s) (s_misses s) (s_dropped s) (s_evicted s) (s_dispatched s) (s_succeeded s) (s_failed s) (s_notified s) (s_lost s) (s_next_sync s) (s_next_job s) (s_next_look s) (s_g_processed s) (s_g_overflow s) (s_g_discarded s) (s_g_tracked s) (s_requests s) (s_supplied s).
Definition set_events (v : list event) (s : state) : state := mkState (s_resident s) (s_meta s) (s_entries s) (s_store s) (s_pending s) (s_gen s) (s_last_sweep s) (s_inflight s) (s_queued s) v (s_cmds s) (s_enabled s) (s_halted s) (s_looking s) (s_hits s) (s_misses s) (s_dropped s) (s_evicted s) (s_dispatched s) (s_succeeded s) (s_failed s) (s_notified s) (s_lost s) (s_next_sync s) (s_next_job s) (s_next_look s) (s_g_processed s) (s_g_overflow s) (s_g_discarded s) (s_g_tracked s) (s_requests s) (s_supplied s).
Definition set_cmds (v : list cmd) (s : state) : state := mkState (s_resident s) (s_meta s) (s_entries s) (s_store s) (s_pending s) (s_gen s) (s_last_sweep s) (s_inflight s) (s_queued s) (s_events s) v (s_enabled s) (s_halted s) (s_looking s) (s_hits s) (s_misses s) (s_dropped s) (s_evicted s) (s_dispatched s) (s_succeeded s) (s_failed s) (s_notified s) (s_lost s) (s_next_sync s) (s_next_job s) (s_next_look s) (s_g_processed s) (s_g_overflow s) (s_g_discarded s) (s_g_tracked s) (s_requests s) (s_supplied s).
Definition set_enabled (v : bool) (s : state) : state := mkState (s_resident s) (s_meta s) (s_entries s) (s_store s) (s_pending s) (s_gen s) (s_last_sweep s) (s_inflight s) (s_queued s) (s_events s) (s_cmds s) v (s_halted s) (s_looking s) (s_hits s) (s_misses s) (s_dropped s) (s_evicted s) (s_dispatched s) (s_succeeded s) (s_failed s) (s_notified s) (s_lost s) (s_next_sync s) (s_next_job s) (s_next_look s) (s_g_processed s) (s_g_overflow s) (s_g_discarded s) (s_g_tracked s) (s_requests s) (s_supplied s).
Definition set_halted (v : bool) (s : state) : state := mkState (s_resident s) (s_meta s) (s_entries s) (s_store s) (s_pending s) (s_gen s) (s_last_sweep s) (s_inflight s) (s_queued s) (s_events s) (s_cmds s) (s_enabled s) v (s_looking s) (s_hits s) (s_misses s) (s_dropped s) (s_evicted s) (s_dispatched s) (s_succeeded s) (s_failed s) (s_notified s) (s_lost s) (s_next_sync s) (s_next_job s) (s_next_look s) (s_g_processed s) (s_g_overflow s) (s_g_discarded s) (s_g_tracked s) (s_requests s) (s_supplied s).
Definition set_looking (v : list event) (s : state) : state := mkState (s_resident s) (s_meta s) (s_entries s) (s_store s) (s_pending s) (s_gen s) (s_last_sweep s) (s_inflight s) (s_queued s) (s_events s) (s_cmds s) (s_enabled s) (s_halted s) v (s_hits s) (s_misses s) (s_dropped s) (s_evicted s) (s_dispatched s) (s_succeeded s) (s_failed s) (s_notified s) (s_lost s) (s_next_sync s) (s_next_job s) (s_next_look s) (s_g_processed s) (s_g_overflow s) (s_g_discarded s) (s_g_tracked s) (s_requests s) (s_supplied s).
Definition set_hits (v : nat) (s : state) : state := mkState (s_resident s) (s_meta s) (s_entries s) (s_store s) (s_pending s) (s_gen s) (s_last_sweep s) (s_inflight s) (s_queued s) (s_events s) (s_cmds s) (s_enabled s) (s_halted s) (s_looking s) v (s_misses s) (s_dropped s) (s_evicted s) (s_dispatched s) (s_succeeded s) (s_failed s) (s_notified s) (s_lost s) (s_next_sync s) (s_next_job s) (s_next_look s) (s_g_processed s) (s_g_overflow s) (s_g_discarded s) (s_g_tracked s) (s_requests s) (s_supplied s).
Definition set_misses (v : nat) (s : state) : state := mkState (s_resident s) (s_meta s) (s_entries s) (s_store s) (s_pending s) (s_gen s) (s_last_sweep s) (s_inflight s) (s_queued s) (s_events s) (s_cmds s) (s_enabled s) (s_halted s) (s_looking s) (s_hits s) v (s_dropped s) (s_evicted s) (s_dispatched s) (s_succeeded s) (s_failed s) (s_notified s) (s_lost s) (s_next_sync s) (s_next_job s) (s_next_look s) (s_g_processed s) (s_g_overflow s) (s_g_discarded s) (s_g_tracked s) (s_requests s) (s_supplied s).
Definition set_dropped (v : nat) (s : state) : state := mkState (s_resident s) (s_meta s) (s_entries s) (s_store s) (s_pending s) (s_gen s) (s_last_sweep s) (s_inflight s) (s_queued s) (s_events s) (s_cmds s) (s_enabled s) (s_halted s) (s_looking s) (s_hits s) (s_misses s) v (s_evicted s) (s_dispatched s) (s_succeeded s) (s_failed s) (s_notified s) (s_lost s) (s_next_sync s) (s_next_job s) (s_next_look s) (s_g_processed s) (s_g_overflow s) (s_g_discarded s) (s_g_tracked s) (s_requests s) (s_supplied s).
Definition set_evicted (v : nat) (s : state) : state := mkState (s_resident s) (s_meta s) (s_entries s) (s_store s) (s_pending s) (s_gen s) (s_last_sweep s) (s_inflight s) (s_queued s) (s_events s) (s_cmds s) (s_enabled s) (s_halted s) (s_looking s) (s_hits s) (s_misses s) (s_dropped s) v (s_dispatched s) (s_succeeded s) (s_failed s) (s_notified s) (s_lost s) (s_next_sync s) (s_next_job s) (s_next_look s) (s_g_processed s) (s_g_overflow s) (s_g_discarded s) (s_g_tracked s) (s_requests s) (s_supplied s).
Definition set_dispatched (v : nat) (s : state) : state := mkState (s_resident s) (s_meta s) (s_entries s) (s_store s) (s_pending s) (s_gen s) (s_last_sweep s) (s_inflight s) (s_queued s) (s_events s) (s_cmds s) (s_enabled s) (s_halted s) (s_looking s) (s_hits s) (s_misses s) (s_dropped s) (s_evicted s) v (s_succeeded s) (s_failed s) (s_notified s) (s_lost s) (s_next_sync s) (s_next_job s) (s_next_look s) (s_g_processed s) (s_g_overflow s) (s_g_discarded s) (s_g_tracked s) (s_requests s) (s_supplied s).
Definition set_succeeded (v : nat) (s : state) : state := mkState (s_resident s) (s_meta s) (s_entries s) (s_store s) (s_pending s) (s_gen s) (s_last_sweep s) (s_inflight s) (s_queued s) (s_events s) (s_cmds s) (s_enabled s) (s_halted s) (s_looking s) (s_hits s) (s_misses s) (s_dropped s) (s_evicted s) (s_dispatched s) v (s_failed s) (s_notified s) (s_lost s) (s_next_sync s) (s_next_job s) (s_next_look s) (s_g_processed s) (s_g_overflow s) (s_g_discarded s) (s_g_tracked s) (s_requests s) (s_supplied s).
Definition set_failed (v : nat) (s : state) : state := mkState (s_resident s) (s_meta s) (s_entries s) (s_store s) (s_pending s) (s_gen s) (s_last_sweep s) (s_inflight s) (s_queued s) (s_events s) (s_cmds s) (s_enabled s) (s_halted s) (s_looking s) (s_hits s) (s_misses s) (s_dropped s) (s_evicted s) (s_dispatched s) (s_succeeded s) v (s_notified s) (s_lost s) (s_next_sync s) (s_next_job s) (s_next_look s) (s_g_processed s) (s_g_overflow s) (s_g_discarded s) (s_g_tracked s) (s_requests s) (s_supplied s).
Definition set_notified (v : list nat) (s : state) : state := mkState (s_resident s) (s_meta s) (s_entries s) (s_store s) (s_pending s) (s_gen s) (s_last_sweep s) (s_inflight s) (s_queued s) (s_events s) (s_cmds s) (s_enabled s) (s_halted s) (s_looking s) (s_hits s) (s_misses s) (s_dropped s) (s_evicted s) (s_dispatched s) (s_succeeded s) (s_failed s) v (s_lost s) (s_next_sync s) (s_next_job s) (s_next_look s) (s_g_processed s) (s_g_overflow s) (s_g_discarded s) (s_g_tracked s) (s_requests s) (s_supplied s).
Definition set_lost (v : list nat) (s : state) : state := mkState (s_resident s) (s_meta s) (s_entries s) (s_store s) (s_pending s) (s_gen s) (s_last_sweep s) (s_inflight s) (s_queued s) (s_events s) (s_cmds s) (s_enabled s) (s_halted s) (s_looking s) (s_hits s) (s_misses s) (s_dropped s) (s_evicted s) (s_dispatched s) (s_succeeded s) (s_failed s) (s_notified s) v (s_next_sync s) (s_next_job s) (s_next_look s) (s_g_processed s) (s_g_overflow s) (s_g_discarded s) (s_g_tracked s) (s_requests s) (s_supplied s).
Definition set_next_sync (v : nat) (s : state) : state := mkState (s_resident s) (s_meta s) (s_entries s) (s_store s) (s_pending s) (s_gen s) (s_last_sweep s) (s_inflight s) (s_queued s) (s_events s) (s_cmds s) (s_enabled s) (s_halted s) (s_looking s) (s_hits s) (s_misses s) (s_dropped s) (s_evicted s) (s_dispatched s) (s_succeeded s) (s_failed s) (s_notified s) (s_lost s) v (s_next_job s) (s_next_look s) (s_g_processed s) (s_g_overflow s) (s_g_discarded s) (s_g_tracked s) (s_requests s) (s_supplied s).
Definition set_next_job (v : nat) (s : state) : state := mkState (s_resident s) (s_meta s) (s_entries s) (s_store s) (s_pending s) (s_gen s) (s_last_sweep s) (s_inflight s) (s_queued s) (s_events s) (s_cmds s) (s_enabled s) (s_halted s) (s_looking s) (s_hits s) (s_misses s) (s_dropped s) (s_evicted s) (s_dispatched s) (s_succeeded s) (s_failed s) (s_notified s) (s_lost s) (s_next_sync s) v (s_next_look s) (s_g_processed s) (s_g_overflow s) (s_g_discarded s) (s_g_tracked s) (s_requests s) (s_supplied s).
Definition set_next_look (v : nat) (s : state) : state := mkState (s_resident s) (s_meta s) (s_entries s) (s_store s) (s_pending s) (s_gen s) (s_last_sweep s) (s_inflight s) (s_queued s) (s_events s) (s_cmds s) (s_enabled s) (s_halted s) (s_looking s) (s_hits s) (s_misses s) (s_dropped s) (s_evicted s) (s_dispatched s) (s_succeeded s) (s_failed s) (s_notified s) (s_lost s) (s_next_sync s) (s_next_job s) v (s_g_processed s) (s_g_overflow s) (s_g_discarded s) (s_g_tracked s) (s_requests s) (s_supplied s).
Definition set_g_processed (v : list event) (s : state) : state := mkState (s_resident s) (s_meta s) (s_entries s) (s_store s) (s_pending s) (s_gen s) (s_last_sweep s) (s_inflight s) (s_queued s) (s_events s) (s_cmds s) (s_enabled s) (s_halted s) (s_looking s) (s_hits s) (s_misses s) (s_dropped s) (s_evicted s) (s_dispatched s) (s_succeeded s) (s_failed s) (s_notified s) (s_lost s) (s_next_sync s) (s_next_job s) (s_next_look s) v (s_g_overflow s) (s_g_discarded s) (s_g_tracked s) (s_requests s) (s_supplied s).
Definition set_g_overflow (v : list event) (s : state) : state := mkState (s_resident s) (s_meta s) (s_entries s) (s_store s) (s_pending s) (s_gen s) (s_last_sweep s) (s_inflight s) (s_queued s) (s_events s) (s_cmds s) (s_enabled s) (s_halted s) (s_looking s) (s_hits s) (s_misses s) (s_dropped s) (s_evicted s) (s_dispatched s) (s_succeeded s) (s_failed s) (s_notified s) (s_lost s) (s_next_sync s) (s_next_job s) (s_next_look s) (s_g_processed s) v (s_g_discarded s) (s_g_tracked s) (s_requests s) (s_supplied s).
Definition set_g_discarded (v : list event) (s : state) : state := mkState (s_resident s) (s_meta s) (s_entries s) (s_store s) (s_pending s) (s_gen s) (s_last_sweep s) (s_inflight s) (s_queued s) (s_events s) (s_cmds s) (s_enabled s) (s_halted s) (s_looking s) (s_hits s) (s_misses s) (s_dropped s) (s_evicted s) (s_dispatched s) (s_succeeded s) (s_failed s) (s_notified s) (s_lost s) (s_next_sync s) (s_next_job s) (s_next_look s) (s_g_processed s) (s_g_overflow s) v (s_g_tracked s) (s_requests s) (s_supplied s).
Definition set_g_tracked (v : list bool) (s : state) : state := mkState (s_resident s) (s_meta s) (s_entries s) (s_store s) (s_pending s) (s_gen s) (s_last_sweep s) (s_inflight s) (s_queued s) (s_events s) (s_cmds s) (s_enabled s) (s_halted s) (s_looking s) (s_hits s) (s_misses s) (s_dropped s) (s_evicted s) (s_dispatched s) (s_succeeded s) (s_failed s) (s_notified s) (s_lost s) (s_next_sync s) (s_next_job s) (s_next_look s) (s_g_processed s) (s_g_overflow s) (s_g_discarded s) v (s_requests s) (s_supplied s).
Definition set_requests (v : list key) (s : state) : state := mkState (s_resident s) (s_meta s) (s_entries s) (s_store s) (s_pending s) (s_gen s) (s_last_sweep s) (s_inflight s) (s_queued s) (s_events s) (s_cmds s) (s_enabled s) (s_halted s) (s_looking s) (s_hits s) (s_misses s) (s_dropped s) (s_evicted s) (s_dispatched s) (s_succeeded s) (s_failed s) (s_notified s) (s_lost s) (s_next_sync s) (s_next_job s) (s_next_look s) (s_g_processed s) (s_g_overflow s) (s_g_discarded s) (s_g_tracked s) v (s_supplied s).
Definition set_supplied (v : list (key * list Z)) (s : state) : state := mkState (s_resident s) (s_meta s) (s_entries s) (s_store s) (s_pending s) (s_gen s) (s_last_sweep s) (s_inflight s) (s_queued s) (s_events s) (s_cmds s) (s_enabled s) (s_halted s) (s_looking s) (s_hits s) (s_misses s) (s_dropped s) (s_evicted s) (s_dispatched s) (s_succeeded s) (s_failed s) (s_notified s) (s_lost s) (s_next_sync s) (s_next_job s) (s_next_look s) (s_g_processed s) (s_g_overflow s) (s_g_discarded s) (s_g_tracked s) (s_requests s) v.

(** worker.rs:61-65 `notify`: fires at most once because it consumes the notifier. *)
Definition notify (nid : option nat) (s : state) : state :=
  match nid with Some n => set_notified (n :: s_notified s) s | None => s end.
Definition notify_all (l : list (option nat)) (s : state) : state := fold_left (fun s n => notify n s) l s.
(** Dropping a notifier without firing it (Rust drop of the channel sender). *)
Definition lose (nid : option nat) (s : state) : state :=
  match nid with Some n => set_lost (n :: s_lost s) s | None => s end.
Definition lose_all (l : list (option nat)) (s : state) : state := fold_left (fun s n => lose n s) l s.
Definition pend_of (k : key) (s : state) : list (option nat) :=
  match get k (s_entries s) with Some e => e_pend e | None => [] end.

(** `self.entries.remove(key)`: the removed entry is dropped, and its notifiers with it. *)
Definition entries_remove (k : key) (s : state) : state :=
  lose_all (pend_of k s) (set_entries (del k (s_entries s)) s).

(** backend.rs:484-487 `insert_resident`. *)
Definition insert_resident (now : Z) (k : key) (p : program) (s : state) : state :=
  set_meta (set k now (s_meta s)) (set_resident (set k p (s_resident s)) s).
(** backend.rs:489-492 `remove_resident`. *)
Definition remove_resident (k : key) (s : state) : state :=
  set_meta (del k (s_meta s)) (set_resident (del k (s_resident s)) s).

(** backend.rs:391-449 `try_load_persisted_aot`. [io] = the probe, `dlopen` and symbol lookup succeed. *)
Definition try_load_persisted_aot (c : config) (io : bool) (now : Z) (k : key) (s : state) : bool * state :=
  match s_store s with
  | None => (false, s)
  | Some st =>
      match kget akey_eqb (k, c_aot_opt c) st with
      | Some f => if io then (true, insert_resident now k (mkProg k Aot f) s) else (false, s)
      | None => (false, s)
      end
  end.

(** worker.rs:232-266 `try_send`: accepted iff there is a pool and room in the queue. *)
Definition try_send (c : config) (j : job) (s : state) : option state :=
  if (c_workers c =? 0)%nat then None
  else if (c_workers c * c_qcap c <=? s_queued s)%nat then None
  else Some (set_inflight (s_inflight s ++ [j]) (set_queued (S (s_queued s)) s)).

(** backend.rs:188-195 `AdmitMode`. *)
Inductive mode := Observed | Explicit.

(** backend.rs:332-389, the part of `try_admit` after the entry has been fetched or created ([e]). *)
Definition admit_entry (c : config) (now : Z) (kd : kind) (k : key) (nid : option nat) (m : mode) (e : entry) (s : state) : state :=
  match e_phase e with
  | Working => set_entries (set k (mkEntry (e_hot e) Working (e_code e) now (e_pend e ++ [nid])) (s_entries s)) s
  | Cold =>
      let hot := match m with Observed => Z.min (e_hot e + 1) (2 ^ 32 - 1) | Explicit => e_hot e end in
      let s := set_entries (set k (mkEntry hot Cold (e_code e) now (e_pend e)) (s_entries s)) s in
      if match m with Observed => hot <? c_hot c | Explicit => false end then lose nid s
      else if (c_maxpending c <=? s_pending s)%nat then notify nid s
      else
        let j := mkJob (s_next_job s) kd k (e_code e) nid (s_gen s) Queued in
        match try_send c j s with
        | Some s =>
            set_entries (set k (mkEntry hot Working (e_code e) now (e_pend e)) (s_entries s))
              (set_next_job (S (s_next_job s)) (set_pending (S (s_pending s)) (set_dispatched (S (s_dispatched s)) s)))
        | None => notify nid s
        end
  end.

(** backend.rs:289-389 `try_admit`. *)
Definition try_admit (c : config) (io : bool) (now : Z) (kd : kind) (k : key) (code : list Z) (nid : option nat) (m : mode) (s : state) : state :=
  if has k (s_resident s) then notify nid s
  else if negb (should_compile c code) then notify nid s
  else if match m with Observed => negb (has k (s_entries s)) && (c_maxpending c * 10 <=? length (s_entries s))%nat | Explicit => false end
  then lose nid s
  else
    let '(loaded, s) := match kd with Aot => try_load_persisted_aot c io now k s | Jit => (false, s) end in
    if loaded then notify nid s
    else admit_entry c now kd k nid m
           (match get k (s_entries s) with Some e => e | None => mkEntry 0 Cold code now [] end) s.

(** backend.rs:258-270 `handle_lookup_observed`. *)
Definition handle_lookup_observed (c : config) (io : bool) (now : Z) (ev : event) (s : state) : state :=
  let s := set_g_processed (ev :: s_g_processed s) s in
  match ev_code ev with
  | [] =>
      let s := set_hits (S (s_hits s)) s in
      if has (ev_key ev) (s_meta s) then set_meta (set (ev_key ev) now (s_meta s)) s else s
  | _ =>
      let s := set_misses (S (s_misses s)) s in
      try_admit c io now (if c_aot c then Aot else Jit) (ev_key ev) (ev_code ev) None Observed s
  end.

(** backend.rs:277-287 `handle_prepare_aot`; [io n] is the outcome of the n-th probe. *)
Fixpoint handle_prepare_aot (c : config) (io : nat -> bool) (now : Z) (n : nat) (reqs : list (key * list Z)) (s : state) : state :=
  match reqs with
  | [] => s
  | (k, code) :: reqs => handle_prepare_aot c io now (S n) reqs (try_admit c (io n) now Aot k code None Explicit s)
  end.

(** backend.rs:451-467 `handle_clear_resident`. *)
Definition handle_clear_resident (s : state) : state :=
  let s' := set_gen (S (s_gen s))
             (set_g_discarded (s_events s ++ s_g_discarded s)
               (set_events []
                 (set_entries [] (set_meta [] (set_resident [] s))))) in
  notify_all (flat_map (fun p => e_pend (snd p)) (s_entries s)) s'.

(** backend.rs:469-477 `handle_clear_persisted`; [io] = the store's `clear` succeeds (when it fails the
    contents are modelled as unchanged). *)
Definition handle_clear_persisted (io : bool) (s : state) : state :=
  match s_store s with Some _ => if io then set_store (Some []) s else s | None => s end.

(** backend.rs:610-717 `handle_aot_success` (the result goes through the store and back).
    [io 0], [io 1]: storing / reloading and `dlopen` succeed. *)
Definition handle_aot_success (c : config) (io : nat -> bool) (now : Z) (k : key) (f : func) (s : state) : state :=
  match s_store s with
  | None => set_failed (S (s_failed s)) (entries_remove k s)
  | Some st =>
      if io 0%nat then
        let st' := kset akey_eqb (k, c_aot_opt c) f st in
        let s := set_store (Some st') s in
        match kget akey_eqb (k, c_aot_opt c) st' with
        | Some f' =>
            if io 1%nat then
              set_succeeded (S (s_succeeded s)) (entries_remove k (insert_resident now k (mkProg k Aot f') s))
            else set_failed (S (s_failed s)) (entries_remove k s)
        | None => set_failed (S (s_failed s)) (entries_remove k s)
        end
      else set_failed (S (s_failed s)) (entries_remove k s)
  end.

(** The function a worker's success carries: compiled from the job's own bytecode for the job's hardfork
    (worker.rs:545-567, 569-605, 607-646; for the helper process see C40). *)
Definition job_func (j : job) : func := mkFunc (j_code j) (snd (j_key j)) (Some (j_id j)).

(** backend.rs:494-608 `handle_worker_result` for the finished job [j] with outcome [o]. [io 2]: linking
    a helper's object succeeds (backend.rs:575-608). *)
Definition handle_worker_result (c : config) (io : nat -> bool) (now : Z) (j : job) (o : outcome) (s : state) : state :=
  let s := set_pending (s_pending s - 1)%nat s in
  let k := j_key j in
  (* mem::take of the entry's notifiers *)
  let pend := pend_of k s in
  let s := match get k (s_entries s) with
           | Some e => set_entries (set k (mkEntry (e_hot e) (e_phase e) (e_code e) (e_seen e) []) (s_entries s)) s
           | None => s
           end in
  let notify_s s := notify_all pend (notify (j_nid j) s) in
  if negb (j_gen j =? s_gen s)%nat then notify_s (entries_remove k s)
  else
    let publish s := set_succeeded (S (s_succeeded s)) (entries_remove k (insert_resident now k (mkProg k Jit (job_func j)) s)) in
    let fail s := set_failed (S (s_failed s)) (entries_remove k s) in
    notify_s match o with
             | OJit => publish s
             | OAot => handle_aot_success c io now k (job_func j) s
             | OObject => if io 2%nat then publish s else fail s
             | OErr => fail s
             end.

(** backend.rs:793-802 `should_sweep`; [rd n] is the n-th reading of `jit_total_bytes`. *)
Definition should_sweep (c : config) (now : Z) (rd : nat -> Z) (s : state) : bool :=
  ((c_budget c >? 0) && (rd 0%nat >? c_budget c))
  || match c_idle c with Some _ => now - s_last_sweep s >=? c_interval c | None => false end.

(** One eviction (backend.rs:746-748, 786-788). *)
Definition evict (k : key) (s : state) : state := set_evicted (S (s_evicted s)) (entries_remove k (remove_resident k s)).

(** backend.rs:731-750, phase 1. *)
Definition sweep_idle (c : config) (now : Z) (s : state) : state :=
  match c_idle c with
  | Some idle => fold_left (fun s k => evict k s) (map fst (filter (fun p => now - snd p >? idle) (s_meta s))) s
  | None => s
  end.
(** backend.rs:752-761, phase 2. *)
Definition stale_cold (now idle : Z) (s : state) (p : key * entry) : bool :=
  match e_phase (snd p) with Cold => true | Working => false end && (now - e_seen (snd p) >? idle) && negb (has (fst p) (s_resident s)).
Definition sweep_cold (c : config) (now : Z) (s : state) : state :=
  match c_idle c with
  | Some idle =>
      lose_all (flat_map (fun p => e_pend (snd p)) (filter (stale_cold now idle s) (s_entries s)))
        (set_entries (filter (fun p => negb (stale_cold now idle s p)) (s_entries s)) s)
  | None => s
  end.
(** backend.rs:767-775, `sort_by_key` (stable) of the candidates by last hit. *)
Fixpoint insert_by_hit (p : key * Z) (l : list (key * Z)) : list (key * Z) :=
  match l with
  | [] => [p]
  | q :: l' => if snd p <=? snd q then p :: l else q :: insert_by_hit p l'
  end.
Definition sort_by_hit (l : list (key * Z)) : list (key * Z) := fold_right insert_by_hit [] l.
Definition is_jit (s : state) (k : key) : bool :=
  match get k (s_resident s) with Some p => match p_kind p with Jit => true | Aot => false end | None => false end.
(** backend.rs:777-789, the eviction loop; the n-th iteration reads [rd n]. *)
Fixpoint sweep_lru (c : config) (rd : nat -> Z) (n : nat) (cands : list (key * Z)) (s : state) : state :=
  match cands with
  | [] => s
  | (k, _) :: cands => if rd n <=? c_budget c then s else sweep_lru c rd (S n) cands (evict k s)
  end.
(** backend.rs:719-791 `run_eviction_sweep`. [order] reorders the metadata map (hash-map iteration order
    is arbitrary); [act] requires it to be a permutation. *)
Definition sweep (c : config) (now : Z) (rd : nat -> Z) (order : list (key * Z) -> list (key * Z)) (s : state) : state :=
  if negb (should_sweep c now rd s) then s
  else
    let s := sweep_cold c now (sweep_idle c now (set_last_sweep now s)) in
    if (c_budget c >? 0) && (rd 1%nat >? c_budget c) then
      sweep_lru c rd 2 (sort_by_hit (filter (fun p => is_jit s (fst p)) (order (s_meta s)))) s
    else s.

(** mod.rs:204-240 `lookup` up to the decision, in non-blocking mode. [busy]: the shard of the concurrent
    map is locked, `try_get` gives up (mod.rs:225). *)
Inductive decision := Compiled (p : program) | Disabled | Ineligible | NotReady.
Definition lookup_decide (c : config) (busy : bool) (k : key) (code : list Z) (s : state) : decision :=
  if negb (s_enabled s) then Disabled
  else if negb (should_compile c code) then Ineligible
  else match (if busy then None else get k (s_resident s)) with
       | Some p => Compiled p
       | None => NotReady
       end.

(** Environment choices of a backend step. *)
Record oracle := mkOracle { o_now : Z; o_io : nat -> bool }.

Inductive action :=
| ALookup (busy : bool) (k : key) (code : list Z)      (* a caller's lookup, up to its decision *)
| APush (n : nat)                                      (* the n-th unfinished lookup pushes its event *)
| AGetTracked (k : key)                                (* get_compiled_tracked *)
| ASend (x : cmd)                                      (* compile_jit, prepare_aot, clear_*, shutdown *)
| ACompileSync (k : key) (code : list Z)               (* compile_jit_sync: fresh notifier *)
| ASetEnabled (b : bool)
| BCmd (o : oracle) | BEvent (o : oracle) | BResult (n : nat) (o : oracle)
| BSweep (now : Z) (rd : nat -> Z) (order : list (key * Z) -> list (key * Z))
| WStart (n : nat) | WFinish (n : nat) (ok : bool).

(** What a caller hands in with a command. *)
Definition cmd_codes (x : cmd) : list (key * list Z) :=
  match x with CompileJit k code _ => [(k, code)] | PrepareAot reqs => reqs | _ => [] end.
Definition nid_of (x : cmd) : option nat := match x with CompileJit _ _ n => n | _ => None end.

(** Outcome of a worker (worker.rs:355-371, 462-466). *)
Definition outcome_of (c : config) (kd : kind) (ok : bool) : outcome :=
  if ok then match kd with Jit => if c_oop c then OObject else OJit | Aot => OAot end else OErr.

(** backend.rs:873-875 and the drop of `BackendState` and of the channel: every notifier still held is
    dropped. *)
Definition shutdown (s : state) : state :=
  let held := map nid_of (s_cmds s) ++ map j_nid (s_inflight s) ++ flat_map (fun p => e_pend (snd p)) (s_entries s) in
  lose_all held (set_halted true (set_cmds [] (set_inflight [] (set_entries [] s)))).

(** backend.rs:228-240 `handle`. *)
Definition handle (c : config) (o : oracle) (x : cmd) (s : state) : state :=
  match x with
  | CompileJit k code nid => try_admit c (o_io o 0%nat) (o_now o) (if c_aot c then Aot else Jit) k code nid Explicit s
  | PrepareAot reqs => handle_prepare_aot c (o_io o) (o_now o) 0 reqs s
  | ClearResident => handle_clear_resident s
  | ClearPersisted => handle_clear_persisted (o_io o 0%nat) s
  | ClearAll => handle_clear_persisted (o_io o 0%nat) (handle_clear_resident s)
  | Shutdown => shutdown s
  end.

(** Update of one list element / removal of one. *)
Definition upd_nth {A} (n : nat) (x : A) (l : list A) : list A := firstn n l ++ x :: skipn (S n) l.
Definition del_nth {A} (n : nat) (l : list A) : list A := firstn n l ++ skipn (S n) l.
Definition with_phase (j : job) (p : jphase) : job := mkJob (j_id j) (j_kind j) (j_key j) (j_code j) (j_nid j) (j_gen j) p.

(** One atomic step; [None] when the action is not enabled. *)
Definition act (c : config) (a : action) (s : state) : option state :=
  match a with
  (* mod.rs:208-232: read the map; a decision of Compiled/NotReady is followed by an event *)
  | ALookup busy k code =>
      let ev hit code := mkEvent (s_next_look s) hit k code in
      match lookup_decide c busy k code s with
      | Compiled _ => Some (set_looking (ev true [] :: s_looking s) (set_next_look (S (s_next_look s)) s))
      | NotReady => Some (set_looking (ev false code :: s_looking s)
                     (set_next_look (S (s_next_look s)) (set_supplied ((k, code) :: s_supplied s) s)))
      | _ => Some s
      end
  (* mod.rs:234-237: push or drop *)
  | APush n =>
      match nth_error (s_looking s) n with
      | Some ev =>
          let s := set_looking (del_nth n (s_looking s)) s in
          Some (if (length (s_events s) <? c_cap c)%nat then set_events (s_events s ++ [ev]) s
                else set_dropped (S (s_dropped s)) (set_g_overflow (ev :: s_g_overflow s) s))
      | None => None
      end
  (* mod.rs:242-261 *)
  | AGetTracked k =>
      let h := has k (s_resident s) in
      let s := set_g_tracked (h :: s_g_tracked s) s in
      Some (if h then set_hits (S (s_hits s)) s else set_misses (S (s_misses s)) s)
  (* mod.rs:287-298, 317-358: a full channel blocks the sender; asynchronous requests carry no notifier *)
  | ASend x =>
      match nid_of x with
      | Some _ => None
      | None => if s_halted s then Some s else if (length (s_cmds s) <? c_cap c)%nat
                then Some (set_cmds (s_cmds s ++ [x]) (set_supplied (cmd_codes x ++ s_supplied s) s)) else None
      end
  (* mod.rs:300-315; after shutdown the send fails and the caller returns *)
  | ACompileSync k code =>
      let n := s_next_sync s in
      if s_halted s then Some (set_lost (n :: s_lost s) (set_next_sync (S n) (set_requests (s_requests s ++ [k]) s)))
      else if (length (s_cmds s) <? c_cap c)%nat
      then Some (set_cmds (s_cmds s ++ [CompileJit k code (Some n)]) (set_next_sync (S n) (set_requests (s_requests s ++ [k]) (set_supplied ((k, code) :: s_supplied s) s))))
      else None
  | ASetEnabled b => Some (set_enabled b s)
  (* backend.rs:848-869: the select loop and tick; each part is a step *)
  | BCmd o =>
      if s_halted s then None
      else match s_cmds s with [] => None | x :: q => Some (handle c o x (set_cmds q s)) end
  | BEvent o =>
      if s_halted s then None
      else match s_events s with [] => None | ev :: q => Some (handle_lookup_observed c (o_io o 0%nat) (o_now o) ev (set_events q s)) end
  | BResult n o =>
      if s_halted s then None
      else match nth_error (s_inflight s) n with
           | Some j => match j_phase j with
                       | Done oc => Some (handle_worker_result c (o_io o) (o_now o) j oc (set_inflight (del_nth n (s_inflight s)) s))
                       | _ => None
                       end
           | None => None
           end
  | BSweep now rd order => if s_halted s then None else Some (sweep c now rd order s)
  (* worker.rs:260-262 *)
  | WStart n =>
      match nth_error (s_inflight s) n with
      | Some j => match j_phase j with
                  | Queued => Some (set_inflight (upd_nth n (with_phase j Running) (s_inflight s)) (set_queued (s_queued s - 1)%nat s))
                  | _ => None
                  end
      | None => None
      end
  | WFinish n ok =>
      match nth_error (s_inflight s) n with
      | Some j => match j_phase j with
                  | Running => Some (set_inflight (upd_nth n (with_phase j (Done (outcome_of c (j_kind j) ok))) (s_inflight s)) s)
                  | _ => None
                  end
      | None => None
      end
  end.

(** The environment keeps its side: a hash map iterates over exactly its elements. *)
Definition fair_action (a : action) : Prop :=
  match a with BSweep _ _ order => forall l, Permutation (order l) l | _ => True end.

(** backend.rs:820-841 and mod.rs:161-202, 443-491: the state when the backend thread starts, with the
    preloaded programs [pre] (C39) and the store contents [st] found on disk. *)
Definition start (now : Z) (pre : list (key * program)) (st : option (list (akey * func))) (en : bool) : state :=
  mkState pre (map (fun p => (fst p, now)) pre) [] st 0 0 now [] 0 [] [] en false [] 0 0 0 0 0 0 0 [] [] 0 0 0 [] [] [] [] [] [].

(** All executions: interleavings of actions. *)
Inductive runs (c : config) : state -> list action -> state -> Prop :=
| runs_nil s : runs c s [] s
| runs_step s a s1 l s2 : fair_action a -> act c a s = Some s1 -> runs c s1 l s2 -> runs c s (a :: l) s2.
