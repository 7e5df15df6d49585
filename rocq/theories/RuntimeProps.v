(** Claims C27-C34 and C36: the runtime backend, for every configuration, every initial state and every
    interleaving of callers, backend thread and workers. *)
From Verif Require Import RuntimeModel RuntimeSpec RuntimeProof RuntimeInv RuntimeInv2 RuntimeInv3 RuntimeInv4 RuntimeInv5 RuntimeInv6 RuntimeInv7.
Open Scope Z_scope.

(** The preloaded programs are stored under their own keys, once each (C39). *)
Definition preload_ok (pre : list (key * program)) : Prop := NoDup (map fst pre) /\ forall k p, In (k, p) pre -> p_key p = k.
(** What exists before the backend starts carries no job number of this run. *)
Definition foreign (pre : list (key * program)) (st : option (list (akey * func))) : Prop :=
  (forall k p, In (k, p) pre -> f_job (p_func p) = None) /\ (forall a f s, st = Some s -> In (a, f) s -> f_job f = None).

(** A small configuration for the concrete histories below. *)
Definition cfg : config := mkConfig 8 2 0 4 1 4 0 None 10 2 false false.
Definition ok : oracle := mkOracle 5 (fun _ => true).
Definition k1 : key := (11, 3).
Definition k2 : key := (12, 3).
Definition code1 : list Z := [0x60; 1; 0].
Definition compile1 : list action := [ASend (CompileJit k1 code1 None); BCmd ok].
Definition finish : list action := [WStart 0; WFinish 0 true; BResult 0 ok].
Ltac fair := repeat (apply Forall_cons; [exact Logic.I || (cbn; reflexivity)|]); apply Forall_nil.

(** * C27: lookups return only matching programs. *)
Theorem C27_lookup c now pre st en l s busy k code p : preload_ok pre -> runs c (start now pre st en) l s ->
  lookup_decide c busy k code s = Compiled p ->
  s_enabled s = true /\ p_key p = k /\
  ((exists a, In a l /\ In (k, f_code (p_func p)) (supplies a) /\ f_spec (p_func p) = snd k) \/
   (exists stored o, st = Some stored /\ In (k, o, p_func p) stored) \/
   (exists q, In (k, q) pre /\ p_func q = p_func p)).
Proof.
  intros [_ PK] R L. unfold lookup_decide in L. destruct (s_enabled s); [|discriminate]. split; [reflexivity|]. cbn in L.
  destruct (should_compile c code); [|discriminate]. destruct busy; [discriminate|]. cbn in L. destruct (get k (s_resident s)) as [p'|] eqn:G; [|discriminate]. injection L as <-.
  destruct (prov_runs _ _ _ _ _ _ R (prov_start pre st now en PK)) as [[A _ _ _] _ _]. destruct (A k p') as [A1 A2]; [apply (kget_in key_eqb KE); exact G|]. split; [exact A1|].
  destruct A2 as [(n & code' & E & I)|[A2|A2]]; [|auto|auto]. left. rewrite E. cbn. destruct (supplied_runs _ _ _ _ _ R I) as [[]|(a & I1 & I2)]. eauto.
Qed.
Print Assumptions C27_lookup.
(** A disabled backend compiles nothing into a lookup. *)
Theorem C27_disabled c busy k code s : s_enabled s = false -> forall p, lookup_decide c busy k code s <> Compiled p.
Proof. intros H p. unfold lookup_decide. rewrite H. discriminate. Qed.
Print Assumptions C27_disabled.
Example C27_ex : match exec cfg (compile1 ++ finish) (start 0 [] None true) with
  | Some s => match lookup_decide cfg false k1 code1 s with Compiled p => key_eqb (p_key p) k1 | _ => false end | None => false end = true.
Proof. vm_compute. reflexivity. Qed.

(** * C28: clearing is a barrier. *)
Theorem C28_barrier c now pre st en l s o x q s1 l2 s2 j f : foreign pre st -> runs c (start now pre st en) l s ->
  s_cmds s = x :: q -> x = ClearResident \/ x = ClearAll -> act c (BCmd o) s = Some s1 -> runs c s1 l2 s2 ->
  In j (s_inflight s) -> visible s2 f -> f_job f <> Some (j_id j).
Proof.
  intros F R Q X H R2 I V. assert (X' : is_clear x = true) by (destruct X as [-> | ->]; reflexivity).
  destruct (clear_cuts _ _ _ _ _ _ Q X' H (proj1 (jobs_runs _ _ _ _ _ _ _ R)) (unborn_runs _ _ _ _ _ _ _ R F)) as [C _].
  apply (cut_runs _ _ _ _ _ R2) in C. destruct (C (j_id j)) as (_ & C' & _); [apply in_map; exact I|]. apply C'. exact V.
Qed.
Print Assumptions C28_barrier.
(** When the clear also empties the store (or there is none), everything visible afterwards was
    dispatched after it. *)
Theorem C28_all c now pre st en l s o x q s1 l2 s2 f : foreign pre st -> preload_ok pre -> runs c (start now pre st en) l s ->
  s_cmds s = x :: q -> x = ClearResident \/ x = ClearAll -> act c (BCmd o) s = Some s1 ->
  s_store s = None \/ (x = ClearAll /\ o_io o 0%nat = true) -> runs c s1 l2 s2 ->
  visible s2 f -> exists n, f_job f = Some n /\ (s_next_job s <= n)%nat.
Proof. intros F [_ PK] R Q X H HS R2 V. eapply cleared_later; eauto. destruct X as [-> | ->]; reflexivity. Qed.
Print Assumptions C28_all.
(** A job is in flight when the clear is processed, finishes, and the key stays interpreted. *)
Example C28_ex : match exec cfg (compile1 ++ [ASend ClearResident]) (start 0 [] None true) with
  | Some s => match act cfg (BCmd ok) s with
              | Some s1 => match exec cfg finish s1 with
                           | Some s2 => (length (s_inflight s) =? 1)%nat && (length (s_inflight s2) =? 0)%nat
                                        && match lookup_decide cfg false k1 code1 s2 with NotReady => true | _ => false end
                           | None => false end
              | None => false end
  | None => false end = true.
Proof. vm_compute. reflexivity. Qed.

(** * C29: one compilation in flight per key. True without clears and when either no store is configured
    or eviction is off. *)
Theorem C29_one_in_flight_partial c now pre st en l s : preload_ok pre -> runs c (start now pre st en) l s ->
  existsb asks_clear l = false -> st = None \/ (c_idle c = None /\ c_budget c <= 0) ->
  NoDup (map j_key (s_inflight s)).
Proof.
  intros [N _] R NC ES. apply (unique_runs c now pre st en l s R N).
  - destruct ES as [-> |ES]; [left; apply (store_runs _ _ _ _ R); reflexivity|right; exact ES].
  - rewrite (gen_runs _ _ _ _ R NC eq_refl). reflexivity.
Qed.
Print Assumptions C29_one_in_flight_partial.
(** Three requests for one key and one for another: two jobs. *)
Example C29_ex : match exec cfg (compile1 ++ compile1 ++ [ASend (CompileJit k2 code1 None); BCmd ok] ++ compile1) (start 0 [] None true) with
  | Some s => (length (s_inflight s) =? 2)%nat | None => false end = true.
Proof. vm_compute. reflexivity. Qed.

Definition twice (k : key) (s : state) : bool :=
  match s_inflight s with
  | [a; b] => key_eqb (j_key a) k && key_eqb (j_key b) k && (j_gen a =? j_gen b)%nat && (j_gen a =? s_gen s)%nat
  | _ => false
  end.
Lemma twice_spec k s : twice k s = true -> exists a b, s_inflight s = [a; b] /\ j_key a = k /\ j_key b = k /\ j_gen a = s_gen s /\ j_gen b = s_gen s.
Proof.
  unfold twice. destruct (s_inflight s) as [|a [|b [|]]]; try discriminate. rewrite !andb_true_iff, !Nat.eqb_eq. intros [[[A B] C] D].
  exists a, b. repeat split; try (apply KE; assumption); congruence.
Qed.
(** With a clear: the result of a job dispatched before the clear removes the record of the job that
    replaced it, and a third request dispatches a second job of the same generation. *)
Definition stale_script : list action := compile1 ++ [ASend ClearResident; BCmd ok] ++ compile1 ++ finish ++ compile1.
Lemma stale_check : match exec cfg stale_script (start 0 [] None true) with Some s => twice k1 s | None => false end = true.
Proof. vm_compute. reflexivity. Qed.
Theorem C29_clear_refuted : exists c l s k a b, runs c (start 0 [] None true) l s /\
  s_inflight s = [a; b] /\ j_key a = k /\ j_key b = k /\ j_gen a = s_gen s /\ j_gen b = s_gen s.
Proof.
  pose proof stale_check as H. destruct (exec cfg stale_script (start 0 [] None true)) as [s|] eqn:E; [|discriminate].
  apply twice_spec in H as (a & b & H). exists cfg, stale_script, s, k1, a, b. split; [|exact H]. apply exec_runs; [fair|exact E].
Qed.
Print Assumptions C29_clear_refuted.
(** Without any clear: the key becomes resident from the store while it is being compiled, and its
    eviction forgets the compilation. *)
Definition cfg_idle : config := mkConfig 8 2 0 4 1 4 0 (Some 10) 1 2 false false.
Definition stored1 : option (list (akey * func)) := Some [((k1, 2), mkFunc code1 3 None)].
Definition sweep_at (now : Z) : action := BSweep now (fun _ => 0) (fun l => l).
Definition evict_script : list action :=
  compile1 ++ [ASend (PrepareAot [(k1, code1)]); BCmd ok; sweep_at 100] ++ compile1.
Lemma evict_check : match exec cfg_idle evict_script (start 0 [] stored1 true) with Some s => twice k1 s | None => false end = true.
Proof. vm_compute. reflexivity. Qed.
Theorem C29_evict_refuted : exists c st l s k a b, runs c (start 0 [] st true) l s /\ existsb asks_clear l = false /\
  s_inflight s = [a; b] /\ j_key a = k /\ j_key b = k /\ j_gen a = s_gen s /\ j_gen b = s_gen s.
Proof.
  pose proof evict_check as H. destruct (exec cfg_idle evict_script (start 0 [] stored1 true)) as [s|] eqn:E; [|discriminate].
  apply twice_spec in H as (a & b & H). exists cfg_idle, stored1, evict_script, s, k1, a, b. split; [|split; [reflexivity|exact H]]. apply exec_runs; [fair|exact E].
Qed.
Print Assumptions C29_evict_refuted.

(** * C30: synchronous callers. *)
(** Every synchronous call is in exactly one place: still waiting, released, or dropped. *)
Theorem C30_exactly_once c now pre st en l s : runs c (start now pre st en) l s ->
  Permutation (waiting s ++ s_notified s ++ s_lost s) (seq 0 (length (filter is_sync l))).
Proof.
  intros R. pose proof (sync_runs _ _ _ _ R) as E. cbn in E. rewrite <- E. apply conserved_perm.
  eapply conserved_inv; [exact R| |]; [apply (start_jobs now pre st en)|apply (start_conserved now pre st en)].
Qed.
Print Assumptions C30_exactly_once.
(** A release has a reason. *)
Theorem C30_release_reason c now pre st en l s a s' n : runs c (start now pre st en) l s -> act c a s = Some s' ->
  In n (s_notified s') -> ~ In n (s_notified s) -> exists k, nth_error (s_requests s) n = Some k /\ released_by c a s s' k n.
Proof. intros R H I1 I2. eapply released; eauto. eapply tied_inv; [exact R|apply (start_tied now pre st en)]. Qed.
Print Assumptions C30_release_reason.
(** Without clears, a result that releases a caller is of the caller's generation (there is only one). *)
Theorem C30_generation_partial c now pre st en l s j : runs c (start now pre st en) l s -> existsb asks_clear l = false ->
  In j (s_inflight s) -> j_gen j = s_gen s /\ s_gen s = 0%nat.
Proof. intros R NC I. split; [eapply gen_jobs; eauto|]. rewrite (gen_runs _ _ _ _ R NC eq_refl). reflexivity. Qed.
Print Assumptions C30_generation_partial.
(** Nobody is dropped while the backend runs, if no store is configured or eviction is off. *)
Theorem C30_no_loss_partial c now pre st en l s : preload_ok pre -> runs c (start now pre st en) l s -> s_halted s = false ->
  st = None \/ (c_idle c = None /\ c_budget c <= 0) -> s_lost s = [].
Proof.
  intros [N _] R H ES. apply (no_loss_runs c now pre st en l s R N H). destruct ES as [-> |ES]; [left; apply (store_runs _ _ _ _ R); reflexivity|right; exact ES].
Qed.
Print Assumptions C30_no_loss_partial.
(** If the backend handles commands and results and workers finish their jobs, every caller is released:
    such work is bounded, and as long as somebody waits there is some to do. *)
Theorem C30_progress c now pre st en l s : runs c (start now pre st en) l s ->
  exists bound, forall l' s', runs c s l' s' -> forallb is_work l' = true ->
    (length l' <= bound)%nat /\ ((forall a, is_work a = true -> act c a s' = None) -> waiting s' = []).
Proof.
  intros R. exists (todo s). intros l' s' R' W. split; [pose proof (work_bounded _ _ _ _ R' W); lia|]. intros NW.
  assert (R2 : runs c (start now pre st en) (l ++ l') s') by (eapply runs_app; eauto).
  destruct (waiting s') as [|x w] eqn:E; [reflexivity|]. exfalso.
  destruct (jobs_runs _ _ _ _ _ _ _ R2) as [J N]. destruct (shut_runs _ _ _ _ _ _ _ R2) as [S1 S2].
  destruct (work_enabled c s' J N S1 S2) as (a & t & W1 & W2); [rewrite E; discriminate|]. rewrite (NW a W1) in W2. discriminate.
Qed.
Print Assumptions C30_progress.
(** Three callers of one key and one of another, one joins the compilation in flight; all are released. *)
Definition sync1 : list action := [ACompileSync k1 code1; BCmd ok].
Example C30_ex : match exec cfg (sync1 ++ sync1 ++ [ACompileSync k2 code1; ACompileSync k1 []; BCmd ok; BCmd ok]) (start 0 [] None true) with
  | Some s => (length (waiting s) =? 3)%nat && (length (s_notified s) =? 1)%nat
              && match exec cfg (finish ++ finish) s with Some s' => (length (waiting s') =? 0)%nat && (length (s_notified s') =? 4)%nat | None => false end
  | None => false end = true.
Proof. vm_compute. reflexivity. Qed.

(** Dropped: the caller joined a compilation whose record an eviction removed. *)
Definition lost_script : list action := sync1 ++ sync1 ++ [ASend (PrepareAot [(k1, code1)]); BCmd ok; sweep_at 100].
Lemma lost_check : match exec cfg_idle lost_script (start 0 [] stored1 true) with Some s => negb (s_halted s) && match s_lost s with [n] => (n =? 1)%nat | _ => false end | None => false end = true.
Proof. vm_compute. reflexivity. Qed.
Theorem C30_lost_refuted : exists c st l s n, runs c (start 0 [] st true) l s /\ existsb asks_clear l = false /\ s_halted s = false /\ In n (s_lost s).
Proof.
  pose proof lost_check as H. destruct (exec cfg_idle lost_script (start 0 [] stored1 true)) as [s|] eqn:E; [|discriminate].
  apply andb_true_iff in H as [H1 H2]. exists cfg_idle, stored1, lost_script, s, 1%nat. split; [apply exec_runs; [fair|exact E]|]. split; [reflexivity|]. split; [destruct (s_halted s); [discriminate|reflexivity]|].
  destruct (s_lost s) as [|n [|]]; try discriminate. apply Nat.eqb_eq in H2. left. exact H2.
Qed.
Print Assumptions C30_lost_refuted.
(** Too early: the result of a job dispatched before a clear releases a caller who joined the job
    dispatched after it, which is still running. *)
Definition early_script : list action := compile1 ++ [ASend ClearResident; BCmd ok] ++ compile1 ++ sync1 ++ [WStart 0; WFinish 0 true].
Definition early_ok (s s' : state) : bool :=
  match s_inflight s, s_inflight s', nth_error (s_requests s) 0 with
  | [a; _], [b], Some k => key_eqb k k1 && key_eqb (j_key b) k1 && (j_gen b =? s_gen s')%nat && (j_gen a <? s_gen s)%nat
      && negb (has k1 (s_resident s')) && match s_notified s, s_notified s' with [], [n] => (n =? 0)%nat | _, _ => false end
  | _, _, _ => false
  end.
Lemma early_check : match exec cfg early_script (start 0 [] None true) with
  | Some s => match act cfg (BResult 0 ok) s with Some s' => early_ok s s' | None => false end | None => false end = true.
Proof. vm_compute. reflexivity. Qed.
Theorem C30_early_refuted : exists c l s s' k n i o a b, runs c (start 0 [] None true) l s /\ act c (BResult i o) s = Some s' /\
  nth_error (s_requests s) n = Some k /\ ~ In n (s_notified s) /\ In n (s_notified s') /\ has k (s_resident s') = false /\
  nth_error (s_inflight s) i = Some a /\ (j_gen a < s_gen s)%nat /\ In b (s_inflight s') /\ j_key b = k /\ j_gen b = s_gen s'.
Proof.
  pose proof early_check as H. destruct (exec cfg early_script (start 0 [] None true)) as [s|] eqn:E; [|discriminate].
  destruct (act cfg (BResult 0 ok) s) as [s'|] eqn:A; [|discriminate]. unfold early_ok in H.
  destruct (s_inflight s) as [|a [|a' [|]]] eqn:E1; try discriminate. destruct (s_inflight s') as [|b [|]] eqn:E2; try discriminate.
  destruct (nth_error (s_requests s) 0) as [k|] eqn:E3; [|discriminate]. rewrite !andb_true_iff in H. destruct H as [[[[[H1 H2] H3] H4] H5] H6].
  destruct (s_notified s) eqn:N1; [|discriminate]. destruct (s_notified s') as [|n [|]] eqn:N2; try discriminate. apply Nat.eqb_eq in H6. subst n.
  apply KE in H1. apply KE in H2. apply Nat.eqb_eq in H3. apply Nat.ltb_lt in H4. apply negb_true_iff in H5. subst k.
  exists cfg, early_script, s, s', k1, 0%nat, 0%nat, ok, a, b. rewrite N1, N2, E1, E2. repeat split; auto; try (left; auto; fail). apply exec_runs; [fair|exact E].
Qed.
Print Assumptions C30_early_refuted.

(** * C31: admission limits. *)
Theorem C31_limits c now pre st en l s : runs c (start now pre st en) l s -> s_halted s = false ->
  (length (s_inflight s) <= c_maxpending c)%nat /\ (count is_queued (s_inflight s) <= c_workers c * c_qcap c)%nat.
Proof.
  intros R H. destruct (counters_inv _ _ _ _ R (start_counters c now pre st en)) as [A B C D]. rewrite <- (A H), <- (B H). auto.
Qed.
Print Assumptions C31_limits.
Theorem C31_tracked c now pre st en l s : runs c (start now pre st en) l s ->
  (length (s_entries s) <= 10 * c_maxpending c + list_sum (map explicit_requests l))%nat.
Proof.
  intros R. destruct (room_inv _ _ _ _ R 0%nat (start_jobs now pre st en) (start_room c now pre st en)) as [A B]. lia.
Qed.
Print Assumptions C31_tracked.
(** With room for one job, the second request is refused; a tracked key needs observation room. *)
Definition cfg_small : config := mkConfig 8 2 0 1 1 1 0 None 10 2 false false.
Definition miss (k : key) : list action := [ALookup false k code1; APush 0; BEvent ok].
Example C31_ex : match exec cfg_small (compile1 ++ [ASend (CompileJit k2 code1 None); BCmd ok] ++ miss (13, 3)) (start 0 [] None true) with
  | Some s => (length (s_inflight s) =? 1)%nat && (length (s_entries s) =? 3)%nat | None => false end = true.
Proof. vm_compute. reflexivity. Qed.

(** * C32: the pending_jobs statistic. *)
Theorem C32_pending_partial c now pre st en l s : preload_ok pre -> runs c (start now pre st en) l s -> s_halted s = false ->
  existsb asks_clear l = false -> stat_pending s = length (s_inflight s).
Proof.
  intros [N _] R H NC. destruct (stat_runs c now pre st en l s R N H) as [_ A]. unfold stat_pending. rewrite (A (gen_runs _ _ _ _ R NC eq_refl)). lia.
Qed.
Print Assumptions C32_pending_partial.
(** With clears it never reports less than the jobs in flight. *)
Theorem C32_lower_bound c now pre st en l s : preload_ok pre -> runs c (start now pre st en) l s -> s_halted s = false ->
  (length (s_inflight s) <= stat_pending s)%nat.
Proof. intros [N _] R H. destruct (stat_runs c now pre st en l s R N H) as [A _]. unfold stat_pending. lia. Qed.
Print Assumptions C32_lower_bound.
Example C32_ex : match exec cfg (compile1 ++ [ASend (CompileJit k2 code1 None); BCmd ok] ++ finish) (start 0 [] None true) with
  | Some s => (stat_pending s =? 1)%nat && (length (s_inflight s) =? 1)%nat && (s_dispatched s =? 2)%nat | None => false end = true.
Proof. vm_compute. reflexivity. Qed.
Definition stat_script : list action := compile1 ++ [ASend ClearResident; BCmd ok] ++ finish.
Lemma stat_check : match exec cfg stat_script (start 0 [] None true) with
  | Some s => negb (s_halted s) && (length (s_inflight s) =? 0)%nat && (stat_pending s =? 1)%nat | None => false end = true.
Proof. vm_compute. reflexivity. Qed.
Theorem C32_refuted : exists c l s, runs c (start 0 [] None true) l s /\ s_halted s = false /\ s_inflight s = [] /\ stat_pending s = 1%nat.
Proof.
  pose proof stat_check as H. destruct (exec cfg stat_script (start 0 [] None true)) as [s|] eqn:E; [|discriminate].
  rewrite !andb_true_iff, !Nat.eqb_eq in H. destruct H as [[H1 H2] H3]. exists cfg, stat_script, s. split; [apply exec_runs; [fair|exact E]|].
  split; [destruct (s_halted s); [discriminate|reflexivity]|]. split; [destruct (s_inflight s); [reflexivity|discriminate]|exact H3].
Qed.
Print Assumptions C32_refuted.

(** * C33: hotness. A step that dispatches a job (one whose number had not been issued before) either handles an explicit request for its key, or
    handles a miss of it, the [jit_hot_threshold]-th at least since the backend last had no record of the key. *)
Theorem C33_hot c now pre st en l s a s' j : runs c (start now pre st en) l s -> act c a s = Some s' ->
  In j (s_inflight s') -> (s_next_job s <= j_id j)%nat ->
  (exists o x q code, a = BCmd o /\ s_cmds s = x :: q /\ In (j_key j, code) (cmd_codes x)) \/
  (processes_miss (j_key j) a s = true /\ c_hot c <= Z.of_nat (misses_since c (j_key j) 0 (start now pre st en) l) + 1).
Proof.
  intros R H I L. destruct (jobs_runs _ _ _ _ _ _ _ R) as [J N].
  destruct (new_jobs _ _ _ _ _ H J I L) as [(o & ev & q & -> & E1 & E2 & E3 & E4)|X]; [right|left; exact X]. split.
  - unfold processes_miss. rewrite E1. apply andb_true_iff. split; [apply KE; exact E2|]. destruct (ev_code ev); [congruence|reflexivity].
  - pose proof (hot_runs c (j_key j) l _ _ R 0%nat (start_jobs now pre st en)) as X. cbn in X. specialize (X (Z.le_refl 0)). lia.
Qed.
Print Assumptions C33_hot.
(** Explicit requests are dispatched whatever the threshold and the hotness. *)
Theorem C33_explicit c o s k code nid q :
  s_halted s = false -> s_cmds s = CompileJit k code nid :: q -> has k (s_resident s) = false -> should_compile c code = true ->
  (forall e, get k (s_entries s) = Some e -> e_phase e = Cold) -> (s_pending s < c_maxpending c)%nat -> (0 < c_workers c)%nat -> (s_queued s < c_workers c * c_qcap c)%nat ->
  (c_aot c = true -> s_store s = None) ->
  exists s' j, act c (BCmd o) s = Some s' /\ s_inflight s' = s_inflight s ++ [j] /\ j_key j = k /\ j_nid j = nid /\ j_id j = s_next_job s.
Proof. exact (explicit_dispatch c o s k code nid q). Qed.
Print Assumptions C33_explicit.
(** Threshold 2: the first miss records the key, the second dispatches. *)
Example C33_ex : match exec cfg (miss k1) (start 0 [] None true) with
  | Some s => (length (s_inflight s) =? 0)%nat && (length (s_entries s) =? 1)%nat
              && match exec cfg (miss k1) s with Some s' => match s_inflight s' with [j] => (s_next_job s <=? j_id j)%nat | _ => false end | None => false end
  | None => false end = true.
Proof. vm_compute. reflexivity. Qed.
Example C33_ex_explicit : match exec cfg [ASend (CompileJit k1 code1 None)] (start 0 [] None true) with
  | Some s => match act cfg (BCmd ok) s with Some s' => (length (s_inflight s') =? 1)%nat | None => false end | None => false end = true.
Proof. vm_compute. reflexivity. Qed.

(** * C34: eviction. *)
Theorem C34_sweep c now0 pre st en l s now rd order s' : preload_ok pre -> runs c (start now0 pre st en) l s -> fair_action (BSweep now rd order) ->
  act c (BSweep now rd order) s = Some s' -> exists idle_keys lru, swept c now rd s s' idle_keys lru.
Proof.
  intros [N _] R F H. cbn in H. destruct (s_halted s); [discriminate|]. injection H as <-. apply sweep_swept; [|exact F].
  eapply maps_inv; [exact R|apply start_maps; exact N].
Qed.
Print Assumptions C34_sweep.
Theorem C34_keys c now pre st en l s : preload_ok pre -> runs c (start now pre st en) l s -> forall k, has k (s_resident s) = has k (s_meta s).
Proof. intros [N _] R. eapply maps_inv; [exact R|apply start_maps; exact N]. Qed.
Print Assumptions C34_keys.
(** Two JIT programs and one preloaded AOT program over budget: only the older JIT program goes. *)
Definition cfg_budget : config := mkConfig 8 2 0 4 1 4 100 None 10 2 false false.
Definition at_time (t : Z) : oracle := mkOracle t (fun _ => true).
Definition budget_script : list action :=
  [ASend (CompileJit k1 code1 None); BCmd (at_time 1); WStart 0; WFinish 0 true; BResult 0 (at_time 2);
   ASend (CompileJit k2 code1 None); BCmd (at_time 3); WStart 0; WFinish 0 true; BResult 0 (at_time 4)].
Definition pre3 : list (key * program) := [((13, 3), mkProg (13, 3) Aot (mkFunc code1 3 None))].
Example C34_ex : match exec cfg_budget (budget_script ++ [BSweep 10 (fun n => if (n <=? 2)%nat then 120 else 80) (fun l => l)]) (start 0 pre3 None true) with
  | Some s => negb (has k1 (s_resident s)) && has k2 (s_resident s) && has (13, 3) (s_resident s) && (s_evicted s =? 1)%nat | None => false end = true.
Proof. vm_compute. reflexivity. Qed.
Example C34_ex_preload : preload_ok pre3.
Proof. split; [repeat constructor; cbn; tauto|]. intros k p [E|[]]. injection E as <- <-. reflexivity. Qed.

(** * C36: lookup accounting. The n-th lookup that consulted the resident map, with its answer, is in
    exactly one place: not yet pushed, queued, processed, dropped, or discarded by a clear. *)
Theorem C36_lookups c now pre st en l s : runs c (start now pre st en) l s ->
  Permutation (map (fun ev => (ev_id ev, ev_hit ev)) (s_looking s ++ s_events s ++ s_g_processed s ++ s_g_overflow s ++ s_g_discarded s))
    (indexed (answers c (start now pre st en) l)) /\
  s_hits s = (count ev_hit (s_g_processed s) + count (fun b => b) (s_g_tracked s))%nat /\
  s_misses s = (count (fun ev => negb (ev_hit ev)) (s_g_processed s) + count negb (s_g_tracked s))%nat /\
  s_dropped s = length (s_g_overflow s).
Proof.
  intros R. destruct (accounted_runs _ _ _ _ R [] (start_accounted now pre st en)) as [A _ _ B C D]. cbn [app] in A. auto.
Qed.
Print Assumptions C36_lookups.
Theorem C36_sum c now pre st en l s : runs c (start now pre st en) l s ->
  (length (answers c (start now pre st en) l) + length (filter is_tracked l) =
   s_hits s + s_misses s + s_dropped s + length (s_events s) + length (s_looking s) + length (s_g_discarded s))%nat.
Proof.
  intros R. destruct (C36_lookups _ _ _ _ _ _ _ R) as (P & H & M & D). apply Permutation_length in P. rewrite map_length, !app_length in P.
  assert (LI : length (indexed (answers c (start now pre st en) l)) = length (answers c (start now pre st en) l)) by (unfold indexed; rewrite combine_length, seq_length; apply Nat.min_id).
  pose proof (tracked_runs _ _ _ _ R) as T. cbn [s_g_tracked start length] in T.
  pose proof (count_split ev_hit (s_g_processed s)). assert (X : (count (fun b : bool => b) (s_g_tracked s) + count negb (s_g_tracked s) = length (s_g_tracked s))%nat) by exact (count_split (fun b : bool => b) (s_g_tracked s)).
  revert T LI P H M D X. generalize (indexed (answers c (start now pre st en) l)). intros I0 T LI P H M D X. lia.
Qed.
Print Assumptions C36_sum.
(** A hit, two misses, one lost at a full queue, one discarded by a clear. *)
Definition cfg_q2 : config := mkConfig 2 5 0 4 1 4 0 None 10 2 false false.
Example C36_ex : match exec cfg_q2 ([ALookup false (13, 3) code1; APush 0; ALookup false k1 code1; APush 0; ALookup false k2 code1; APush 0; BEvent ok; BEvent ok]
                                    ++ [ALookup false k1 code1; APush 0; ASend ClearResident; BCmd ok]) (start 0 pre3 None true) with
  | Some s => (s_hits s =? 1)%nat && (s_misses s =? 1)%nat && (s_dropped s =? 1)%nat && (length (s_g_discarded s) =? 1)%nat | None => false end = true.
Proof. vm_compute. reflexivity. Qed.
(** Blocking lookups (mod.rs:263-288): ask, compile synchronously on a miss, ask again; the one lookup is
    counted as a miss and as a hit. *)
Definition blocking_script : list action := [AGetTracked k1; ACompileSync k1 code1; BCmd ok; WStart 0; WFinish 0 true; BResult 0 ok; AGetTracked k1].
Lemma blocking_check : match exec cfg blocking_script (start 0 [] None true) with
  | Some s => (s_hits s =? 1)%nat && (s_misses s =? 1)%nat && (s_next_look s =? 0)%nat && has k1 (s_resident s) | None => false end = true.
Proof. vm_compute. reflexivity. Qed.
Theorem C36_blocking_refuted : exists c k code l s o, l = [AGetTracked k; ACompileSync k code; BCmd o; WStart 0; WFinish 0 true; BResult 0 o; AGetTracked k] /\
  runs c (start 0 [] None true) l s /\ s_hits s = 1%nat /\ s_misses s = 1%nat.
Proof.
  pose proof blocking_check as H. destruct (exec cfg blocking_script (start 0 [] None true)) as [s|] eqn:E; [|discriminate].
  rewrite !andb_true_iff, !Nat.eqb_eq in H. destruct H as [[[H1 H2] _] _]. exists cfg, k1, code1, blocking_script, s, ok. split; [reflexivity|]. split; [apply exec_runs; [fair|exact E]|auto].
Qed.
Print Assumptions C36_blocking_refuted.
