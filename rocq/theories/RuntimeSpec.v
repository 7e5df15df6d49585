(** Specification vocabulary for the runtime (C27-C34, C36): what a history means, independently of the
    bookkeeping of the backend. *)
From Verif Require Import RuntimeModel.
Open Scope Z_scope.

(** The steps that finish outstanding work: the backend handling a command or a result, a worker starting
    or finishing a job. *)
Definition is_work (a : action) : bool :=
  match a with BCmd _ | BResult _ _ | WStart _ | WFinish _ _ => true | _ => false end.

(** Number of explicit compilation requests issued by an action. *)
Definition explicit_requests (a : action) : nat :=
  match a with ASend x => length (cmd_codes x) | ACompileSync _ _ => 1%nat | _ => 0%nat end.

(** An action of the history asks for a clear of the resident programs. *)
Definition asks_clear (a : action) : bool :=
  match a with ASend ClearResident | ASend ClearAll => true | _ => false end.

(** The step [a] taken in [s] processes a miss of [k]. *)
Definition processes_miss (k : key) (a : action) (s : state) : bool :=
  match a, s_events s with
  | BEvent _, ev :: _ => key_eqb k (ev_key ev) && match ev_code ev with [] => false | _ => true end
  | _, _ => false
  end.

(** Number of misses of [k] processed since the backend last had no record of [k], at the end of the
    history [l] from [s], starting from the count [n]. *)
Fixpoint misses_since (c : config) (k : key) (n : nat) (s : state) (l : list action) : nat :=
  match l with
  | [] => n
  | a :: l =>
      match act c a s with
      | Some s' =>
          let n := if processes_miss k a s then S n else n in
          misses_since c k (if has k (s_entries s') then n else 0%nat) s' l
      | None => n
      end
  end.

(** Execution of a list of actions. *)
Fixpoint exec (c : config) (l : list action) (s : state) : option state :=
  match l with
  | [] => Some s
  | a :: l => match act c a s with Some s' => exec c l s' | None => None end
  end.
Lemma exec_runs c l : forall s s', Forall fair_action l -> exec c l s = Some s' -> runs c s l s'.
Proof.
  induction l as [|a l IH]; intros s s' F H; cbn in H; [injection H as <-; constructor|].
  destruct (act c a s) as [s1|] eqn:E; [|discriminate]. inversion F; subst. econstructor; eauto.
Qed.

(** The answers given, in order, to the lookups of a history that consulted the resident map: [true] for
    `Compiled`, [false] for `Interpret(NotReady)`. *)
Fixpoint answers (c : config) (s : state) (l : list action) : list bool :=
  match l with
  | [] => []
  | a :: l =>
      match act c a s with
      | Some s' =>
          match a with
          | ALookup busy k code =>
              match lookup_decide c busy k code s with
              | Compiled _ => [true]
              | NotReady => [false]
              | _ => []
              end
          | _ => []
          end ++ answers c s' l
      | None => []
      end
  end.
(** A list with positions. *)
Definition indexed {A} (l : list A) : list (nat * A) := combine (seq 0 (length l)) l.

(** ** Synchronous callers (numbered in order of issue). *)
Definition is_sync (a : action) : bool := match a with ACompileSync _ _ => true | _ => false end.
Definition ids (l : list (option nat)) : list nat := flat_map (fun o => match o with Some n => [n] | None => [] end) l.
(** The callers whose notifier is still held: in the command channel, in a job in flight, or by the record
    of a key being compiled. *)
Definition waiting (s : state) : list nat :=
  ids (map nid_of (s_cmds s)) ++ ids (map j_nid (s_inflight s)) ++ ids (flat_map (fun p => e_pend (snd p)) (s_entries s)).

(** Why the step [a] from [s] to [s'] may release caller [n], who asked for [k]: its request was handled
    and refused or found the key resident (or loaded it); a compilation of [k] finished; the cache was
    cleared. *)
Definition released_by (c : config) (a : action) (s s' : state) (k : key) (n : nat) : Prop :=
  (exists o code q, a = BCmd o /\ s_cmds s = CompileJit k code (Some n) :: q /\
    (has k (s_resident s) = true \/ should_compile c code = false \/ has k (s_resident s') = true \/
     (c_maxpending c <= s_pending s \/ c_workers c = 0 \/ c_workers c * c_qcap c <= s_queued s)%nat)) \/
  (exists i o j oc, a = BResult i o /\ nth_error (s_inflight s) i = Some j /\ j_phase j = Done oc /\ j_key j = k) \/
  (exists o q, a = BCmd o /\ (s_cmds s = ClearResident :: q \/ s_cmds s = ClearAll :: q)).


(** ** Bytecode handed in by callers. *)
Definition supplies (a : action) : list (key * list Z) :=
  match a with
  | ALookup _ k code | ACompileSync k code => [(k, code)]
  | ASend x => cmd_codes x
  | _ => []
  end.
(** A function visible in [s]: published, or in the store. *)
Definition visible (s : state) (f : func) : Prop :=
  (exists k p, In (k, p) (s_resident s) /\ p_func p = f) \/ (exists st a, s_store s = Some st /\ In (a, f) st).

(** `pending_jobs` of a statistics snapshot (stats.rs:136-139). *)
Definition stat_pending (s : state) : nat := (s_dispatched s - (s_succeeded s + s_failed s))%nat.

(** ** Sweeps. *)
Definition memk (k : key) (l : list key) : bool := existsb (key_eqb k) l.
(** A sweep is due: over budget, or idle eviction is configured and the interval has passed. *)
Definition sweep_due (c : config) (now : Z) (rd : nat -> Z) (s : state) : Prop :=
  (c_budget c > 0 /\ rd 0%nat > c_budget c) \/ (c_idle c <> None /\ now - s_last_sweep s >= c_interval c).
(** A sweep as a list of evictions: first the idle keys, then [lru] in this order. *)
Record swept (c : config) (now : Z) (rd : nat -> Z) (s s' : state) (idle_keys lru : list key) : Prop := {
  sw_res : forall k, get k (s_resident s') = if memk k (idle_keys ++ lru) then None else get k (s_resident s);
  sw_meta : forall k, get k (s_meta s') = if memk k (idle_keys ++ lru) then None else get k (s_meta s);
  sw_count : s_evicted s' = (length (idle_keys ++ lru) + s_evicted s)%nat;
  sw_idle : forall k, In k idle_keys -> exists d h, c_idle c = Some d /\ get k (s_meta s) = Some h /\ now - h > d;
  sw_idle_all : forall k d h, sweep_due c now rd s -> c_idle c = Some d -> get k (s_meta s) = Some h -> now - h > d -> In k idle_keys;
  sw_jit : forall k, In k lru -> c_budget c > 0 /\ rd 1%nat > c_budget c /\ ~ In k idle_keys /\ exists p, get k (s_resident s) = Some p /\ p_kind p = Jit;
  sw_over : forall i, (i < length lru)%nat -> rd (2 + i)%nat > c_budget c;
  sw_sorted : forall i j a b h h', (i < j)%nat -> nth_error lru i = Some a -> nth_error lru j = Some b -> get a (s_meta s) = Some h -> get b (s_meta s) = Some h' -> h <= h';
  sw_lru : forall a b p h h', In a lru -> get b (s_resident s') = Some p -> p_kind p = Jit -> get a (s_meta s) = Some h -> get b (s_meta s) = Some h' -> h <= h';
  sw_stop : sweep_due c now rd s -> c_budget c > 0 -> rd 1%nat > c_budget c ->
    rd (2 + length lru)%nat <= c_budget c \/ forall b p, get b (s_resident s') = Some p -> p_kind p = Aot }.

