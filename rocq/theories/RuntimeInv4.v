(** Release justification and liveness (C30), bound on tracked keys (C31), hotness (C33). *)
From Verif Require Import RuntimeModel RuntimeSpec RuntimeProof RuntimeInv RuntimeInv2 RuntimeInv3.
Open Scope Z_scope.

Lemma runs_app c s l s1 l' s2 : runs c s l s1 -> runs c s1 l' s2 -> runs c s (l ++ l') s2.
Proof. induction 1; cbn; [auto|]. intros R. econstructor; eauto. Qed.

#[local] Arguments somes : simpl never.

(** ** Identifiers belong to the key of their request. *)
Record tied_core (reqs : list key) (s : state) : Prop := {
  ti_job : forall j n, In j (s_inflight s) -> j_nid j = Some n -> nth_error reqs n = Some (j_key j);
  ti_pend : forall k e n, In (k, e) (s_entries s) -> In (Some n) (e_pend e) -> nth_error reqs n = Some k }.

Lemma old_pend k code now s n : In (Some n) (e_pend (old_entry k code now s)) -> exists e, In (k, e) (s_entries s) /\ In (Some n) (e_pend e).
Proof. intros I. destruct (old_entry_cases k code now s) as [G|[_ G]]; [apply (kget_in key_eqb KE) in G; eauto|rewrite G in I; destruct I]. Qed.

Lemma tied_pres c reqs : pres c (fun k _ nid => forall n, nid = Some n -> nth_error reqs n = Some k) (fun _ => True) (tied_core reqs).
Proof.
  split.
  - intros t t' (E1 & E2 & E3 & E4 & E5 & E6 & E7 & E8 & E9 & E10 & E11 & E12 & E13 & E14) [A B]. split; rewrite ?E3, ?E7; assumption.
  - intros now kd k code nid m t t' G GO H HA _ [A B].
    assert (O : forall n, In (Some n) (e_pend (old_entry k code now t)) -> nth_error reqs n = Some k).
    { intros n I. destruct (old_pend _ _ _ _ _ I) as (e & I1 & I2). eauto. }
    inversion H; subst; rewrite ?notify_nf, ?lose_nf; split; cbn; auto;
      try (intros k' e' n I1 I2; apply (kset_in key_eqb KE) in I1 as [I1|[I1 _]]; [injection I1 as -> ->; cbn in I2|eauto]); auto.
    + apply in_app_iff in I2 as [I2|[I2|[]]]; [|auto]. apply (kget_in key_eqb KE) in H0. eauto.
    + intros j n I1 I2. apply in_app_iff in I1 as [I1|[<-|[]]]; [eauto|]. cbn in *. auto.
  - intros now n j o t t' N PH H HH _ [A B].
    assert (A' : forall j' n', In j' (del_nth n (s_inflight t)) -> j_nid j' = Some n' -> nth_error reqs n' = Some (j_key j')).
    { intros j' n' I. apply A. eapply del_nth_in; eauto. }
    inversion H; subst; split; cbn; auto; intros k e n' I1 I2; apply (kdel_in key_eqb KE) in I1 as [I1 _]; eauto.
  - intros t _ [A B]. unfold handle_clear_resident. rewrite notify_all_nf. split; cbn; [exact A|tauto].
  - intros io t _ [A B]. unfold handle_clear_persisted. destruct (s_store t); [destruct io|]; split; assumption.
  - intros s0 t k _ _ _ _ _ _ _ [A B]. rewrite evict_nf. split; cbn; [exact A|]. intros k' e n' I1 I2. apply (kdel_in key_eqb KE) in I1 as [I1 _]. eauto.
  - intros k now t _ _ [A B]. split; assumption.
  - intros now t _ [A B]. destruct (sweep_cold_nf c now t) as (keep & lst & _ & -> & _). split; cbn; [exact A|]. intros k e n I1 I2. apply filter_In in I1 as [I1 _]. eauto.
  - intros t _ [A B]. unfold shutdown. rewrite lose_all_nf. split; cbn; tauto.
  - intros n j t N PH _ [A B]. split; cbn; [|exact B]. intros j' n' I E. apply (Permutation_in _ (upd_nth_perm _ _ _ _ N)) in I as [<-|I]; [exact (A j n' (nth_error_In _ _ N) E)|].
    apply A; [eapply del_nth_in; eauto|exact E].
  - intros n j ok t N PH _ [A B]. split; cbn; [|exact B]. intros j' n' I E. apply (Permutation_in _ (upd_nth_perm _ _ _ _ N)) in I as [<-|I]; [exact (A j n' (nth_error_In _ _ N) E)|].
    apply A; [eapply del_nth_in; eauto|exact E].
Qed.

Record tied (s : state) : Prop := {
  td_core : tied_core (s_requests s) s;
  td_cmd : forall k code n, In (CompileJit k code (Some n)) (s_cmds s) -> nth_error (s_requests s) n = Some k;
  td_len : length (s_requests s) = s_next_sync s }.

(** How commands and requests change. *)
Lemma handle_frame c o x s : s_next_sync (handle c o x s) = s_next_sync s /\ s_requests (handle c o x s) = s_requests s /\ (forall y, In y (s_cmds (handle c o x s)) -> In y (s_cmds s)).
Proof.
  destruct x; cbn [handle].
  - destruct (admitted_frame _ _ _ _ _ _ _ _ _ (try_admit_cases c (o_io o 0%nat) (o_now o) (if c_aot c then Aot else Jit) k code nid Explicit s)) as (F1 & _ & _ & _ & _ & _ & _ & _ & _ & _ & _ & _ & F2 & F3).
    rewrite F1. auto.
  - destruct (prepare_frame c (o_io o) (o_now o) reqs 0 s) as (F1 & _ & _ & _ & _ & _ & _ & _ & _ & _ & _ & _ & F2 & F3). rewrite F1. auto.
  - unfold handle_clear_resident. rewrite notify_all_nf. auto.
  - unfold handle_clear_persisted. destruct (s_store s); [destruct (o_io o 0%nat)|]; auto.
  - unfold handle_clear_persisted, handle_clear_resident. rewrite notify_all_nf. cbn. destruct (s_store s); [destruct (o_io o 0%nat)|]; auto.
  - unfold shutdown. rewrite lose_all_nf. cbn. tauto.
Qed.
Lemma requests_act c a s s' : act c a s = Some s' ->
  (s_requests s' = s_requests s /\ s_next_sync s' = s_next_sync s /\ (forall k code n, In (CompileJit k code (Some n)) (s_cmds s') -> In (CompileJit k code (Some n)) (s_cmds s))) \/
  (exists k code, a = ACompileSync k code /\ s_requests s' = s_requests s ++ [k] /\ s_next_sync s' = S (s_next_sync s) /\
    (s_cmds s' = s_cmds s \/ s_cmds s' = s_cmds s ++ [CompileJit k code (Some (s_next_sync s))])).
Proof.
  intros H. destruct a; cbn [act] in H.
  - left. destruct (lookup_decide c busy k code s); injection H as <-; auto.
  - left. destruct (nth_error (s_looking s) n); [|discriminate]. injection H as <-. destruct (length (s_events s) <? c_cap c)%nat; auto.
  - left. injection H as <-. destruct (has k (s_resident s)); auto.
  - left. destruct (nid_of x) eqn:NX; [discriminate|]. destruct (s_halted s); [injection H as <-; auto|]. destruct (length (s_cmds s) <? c_cap c)%nat; [|discriminate]. injection H as <-. cbn.
    split; [auto|]. split; [auto|]. intros k code n I. apply in_app_iff in I as [I|[->|[]]]; [exact I|discriminate].
  - right. exists k, code. destruct (s_halted s); [injection H as <-; cbn; auto|]. destruct (length (s_cmds s) <? c_cap c)%nat; [|discriminate]. injection H as <-. cbn. auto.
  - left. injection H as <-. auto.
  - left. destruct (s_halted s); [discriminate|]. destruct (s_cmds s) as [|x q]; [discriminate|]. injection H as <-.
    destruct (handle_frame c o x (set_cmds q s)) as (F1 & F2 & F3). split; [exact F2|]. split; [exact F1|]. intros k code n I. right. exact (F3 _ I).
  - left. destruct (s_halted s); [discriminate|]. destruct (s_events s) as [|ev q]; [discriminate|]. injection H as <-. unfold handle_lookup_observed. destruct (ev_code ev).
    + destruct (has (ev_key ev) _); auto.
    + match goal with |- context [try_admit ?a1 ?a2 ?a3 ?a4 ?a5 ?a6 ?a7 ?a8 ?t0] => destruct (admitted_frame _ _ _ _ _ _ _ _ _ (try_admit_cases a1 a2 a3 a4 a5 a6 a7 a8 t0)) as (F1 & _ & _ & _ & _ & _ & _ & _ & _ & _ & _ & _ & F2 & F3) end.
      rewrite F1. auto.
  - left. destruct (s_halted s); [discriminate|]. destruct (nth_error (s_inflight s) n) as [j|]; [|discriminate]. destruct (j_phase j); try discriminate. injection H as <-.
    match goal with |- context [handle_worker_result ?a1 ?a2 ?a3 ?a4 ?a5 ?t0] => destruct (resulted_frame _ _ _ _ _ _ (handle_worker_result_cases a1 a2 a3 a4 a5 t0)) as (F1 & _ & _ & _ & _ & _ & _ & _ & _ & _ & _ & _ & F2 & F3) end.
    rewrite F1. auto.
  - left. destruct (s_halted s); [discriminate|]. injection H as <-. destruct (sweep_frame c now rd order s) as (F1 & _ & _ & _ & _ & _ & _ & _ & _ & _ & _ & _ & F2 & F3). rewrite F1. auto.
  - left. destruct (nth_error (s_inflight s) n) as [j|]; [|discriminate]. destruct (j_phase j); try discriminate. injection H as <-. auto.
  - left. destruct (nth_error (s_inflight s) n) as [j|]; [|discriminate]. destruct (j_phase j); try discriminate. injection H as <-. auto.
Qed.
Lemma tied_act c a s s' : fair_action a -> act c a s = Some s' -> tied s -> tied s'.
Proof.
  intros F H [[A B] D L].
  assert (M : forall n k, nth_error (s_requests s) n = Some k -> nth_error (s_requests s') n = Some k).
  { intros n k E. destruct (requests_act _ _ _ _ H) as [(R1 & _)|(k' & code & _ & R1 & _)]; rewrite R1; [exact E|].
    rewrite nth_error_app1; [exact E|]. apply nth_error_Some. congruence. }
  split.
  - apply (core_act c _ _ (tied_pres c (s_requests s')) a s s'); [exact F| |intros; discriminate|exact H|split; intros; eauto].
    intros x k code I1 I2 n E. destruct x; cbn in E; try discriminate. subst nid. destruct I2 as [I2|[]]. injection I2 as <- <-. eauto.
  - intros k code n I. destruct (requests_act _ _ _ _ H) as [(R1 & _ & R2)|(k' & code' & _ & R1 & _ & [R2|R2])].
    + apply M. eapply D. eauto.
    + apply M. rewrite R2 in I. eauto.
    + rewrite R2 in I. apply in_app_iff in I as [I|[I|[]]]; [eauto|]. injection I as -> _ <-. rewrite R1, <- L. rewrite nth_error_app2, Nat.sub_diag by lia. reflexivity.
  - destruct (requests_act _ _ _ _ H) as [(R1 & R2 & _)|(k' & code' & _ & R1 & R2 & _)]; rewrite R1, R2; [exact L|]. rewrite app_length. cbn. lia.
Qed.
Lemma tied_inv c l s s' : runs c s l s' -> tied s -> tied s'.
Proof. induction 1; eauto using tied_act. Qed.

(** ** Releases. *)
Lemma somes_in n l : In n (somes l) <-> In (Some n) l.
Proof.
  unfold somes. rewrite in_flat_map. split.
  - intros ([x|] & I & X); [destruct X as [<-|[]]; exact I|destruct X].
  - intros I. exists (Some n). cbn. auto.
Qed.
Lemma pend_of_in k s n : In (Some n) (pend_of k s) -> exists e, In (k, e) (s_entries s) /\ In (Some n) (e_pend e).
Proof. unfold pend_of. destruct (get k (s_entries s)) as [e|] eqn:G; [|intros []]. apply (kget_in key_eqb KE) in G. eauto. Qed.
Lemma prepare_notified c io now reqs : forall i s, s_notified (handle_prepare_aot c io now i reqs s) = s_notified s.
Proof.
  induction reqs as [|[k code] reqs IH]; intros i s; cbn; [reflexivity|]. rewrite IH.
  pose proof (try_admit_cases c (io i) now Aot k code None Explicit s) as H. remember (try_admit c (io i) now Aot k code None Explicit s) as s' eqn:ES. clear ES. inversion H; subst; rewrite ?notify_nf, ?lose_nf; reflexivity.
Qed.
Lemma sweep_notified c now rd order s : s_notified (sweep c now rd order s) = s_notified s.
Proof.
  unfold sweep. destruct (negb _); [reflexivity|].
  assert (I : forall l t, s_notified (fold_left (fun s k => evict k s) l t) = s_notified t).
  { induction l as [|k l IH]; intros t; cbn; [reflexivity|]. rewrite IH, evict_nf. reflexivity. }
  assert (S1 : s_notified (sweep_cold c now (sweep_idle c now (set_last_sweep now s))) = s_notified s).
  { destruct (sweep_cold_nf c now (sweep_idle c now (set_last_sweep now s))) as (keep & lst & _ & -> & _). cbn. unfold sweep_idle. destruct (c_idle c); [rewrite I|]; reflexivity. }
  destruct (_ && _); [|exact S1]. rewrite <- S1. generalize (sweep_cold c now (sweep_idle c now (set_last_sweep now s))). intros t.
  generalize (sort_by_hit (filter (fun p => is_jit t (fst p)) (order (s_meta t)))). intros l. generalize 2%nat. revert t.
  induction l as [|[k v] l IH]; intros t n; cbn; [reflexivity|]. destruct (_ <=? _); [reflexivity|]. rewrite IH, evict_nf. reflexivity.
Qed.

Lemma released c a s s' n : act c a s = Some s' -> tied s -> In n (s_notified s') -> ~ In n (s_notified s) ->
  exists k, nth_error (s_requests s) n = Some k /\ released_by c a s s' k n.
Proof.
  intros H [[A B] D L] I NI. unfold released_by. destruct a; cbn [act] in H.
  - exfalso. destruct (lookup_decide c busy k code s); injection H as <-; exact (NI I).
  - exfalso. destruct (nth_error (s_looking s) n0); [|discriminate]. injection H as <-. destruct (length (s_events s) <? c_cap c)%nat; exact (NI I).
  - exfalso. injection H as <-. destruct (has k (s_resident s)); exact (NI I).
  - exfalso. destruct (nid_of x) eqn:NX; [discriminate|]. destruct (s_halted s); [injection H as <-; exact (NI I)|]. destruct (length (s_cmds s) <? c_cap c)%nat; [|discriminate]. injection H as <-. exact (NI I).
  - exfalso. destruct (s_halted s); [injection H as <-; exact (NI I)|]. destruct (length (s_cmds s) <? c_cap c)%nat; [|discriminate]. injection H as <-. exact (NI I).
  - exfalso. injection H as <-. exact (NI I).
  - destruct (s_halted s); [discriminate|]. destruct (s_cmds s) as [|x q] eqn:Q; [discriminate|]. injection H as <-. destruct x; cbn [handle] in I.
    + pose proof (try_admit_cases c (o_io o 0%nat) (o_now o) (if c_aot c then Aot else Jit) k code nid Explicit (set_cmds q s)) as H.
      remember (try_admit c (o_io o 0%nat) (o_now o) (if c_aot c then Aot else Jit) k code nid Explicit (set_cmds q s)) as s' eqn:ES.
      assert (X : nid = Some n /\ (has k (s_resident s) = true \/ should_compile c code = false \/ has k (s_resident s') = true \/
        (c_maxpending c <= s_pending s \/ c_workers c = 0 \/ c_workers c * c_qcap c <= s_queued s)%nat)).
      { clear ES. inversion H; subst; rewrite ?notify_nf, ?lose_nf in *; cbn in I; try (exfalso; exact (NI I)); apply in_app_iff in I as [I|I]; try (exfalso; exact (NI I)); apply somes_in in I as [->|[]]; (split; [reflexivity|]).
        - destruct H0; auto.
        - right. right. left. cbn. rewrite has_set, (eqb_refl key_eqb KE). reflexivity.
        - auto. }
      destruct X as [-> X]. exists k. split; [apply (D k code n); left; reflexivity|]. left. exists o, code, q. cbn [handle]. rewrite <- ES. auto.
    + exfalso. rewrite prepare_notified in I. exact (NI I).
    + unfold handle_clear_resident in I. rewrite notify_all_nf in I. cbn in I. apply in_app_iff in I as [I|I]; [|destruct (NI I)]. apply in_rev in I. apply somes_in in I. apply in_flat_map in I as ([k e] & I1 & I2).
      exists k. split; [eapply B; eauto|]. right. right. eauto.
    + exfalso. unfold handle_clear_persisted in I. cbn in I. destruct (s_store s); [destruct (o_io o 0%nat)|]; exact (NI I).
    + assert (I' : In n (s_notified (handle_clear_resident (set_cmds q s)))).
      { unfold handle_clear_persisted in I. destruct (s_store _); [destruct (o_io o 0%nat)|]; exact I. }
      unfold handle_clear_resident in I'. rewrite notify_all_nf in I'. cbn in I'. apply in_app_iff in I' as [I'|I']; [|destruct (NI I')]. apply in_rev in I'. apply somes_in in I'. apply in_flat_map in I' as ([k e] & I1 & I2).
      exists k. split; [eapply B; eauto|]. right. right. eauto.
    + exfalso. unfold shutdown in I. rewrite lose_all_nf in I. exact (NI I).
  - exfalso. destruct (s_halted s); [discriminate|]. destruct (s_events s) as [|ev q]; [discriminate|]. injection H as <-. unfold handle_lookup_observed in I. destruct (ev_code ev).
    + destruct (has (ev_key ev) _); exact (NI I).
    + match goal with I : context [try_admit ?a1 ?a2 ?a3 ?a4 ?a5 ?a6 ?a7 ?a8 ?t0] |- _ => pose proof (try_admit_cases a1 a2 a3 a4 a5 a6 a7 a8 t0) as H; remember (try_admit a1 a2 a3 a4 a5 a6 a7 a8 t0) as s' eqn:ES; clear ES end.
      inversion H; subst; rewrite ?notify_nf, ?lose_nf in *; exact (NI I).
  - destruct (s_halted s); [discriminate|]. destruct (nth_error (s_inflight s) n0) as [j|] eqn:NE; [|discriminate]. destruct (j_phase j) eqn:PH; try discriminate. injection H as <-.
    exists (j_key j). split; [|right; left; eauto 10].
    match goal with I : context [handle_worker_result ?a1 ?a2 ?a3 ?a4 ?a5 ?t0] |- _ => pose proof (handle_worker_result_cases a1 a2 a3 a4 a5 t0) as H; remember (handle_worker_result a1 a2 a3 a4 a5 t0) as s' end.
    assert (X : In n (rev (somes (pend_of (j_key j) s)) ++ somes [j_nid j] ++ s_notified s)) by (clear Heqs'; inversion H; subst; exact I).
    apply in_app_iff in X as [X|X]; [|apply in_app_iff in X as [X|X]].
    + apply in_rev in X. apply somes_in in X. apply pend_of_in in X as (e & X1 & X2). eauto.
    + apply somes_in in X as [X|[]]. eapply A; [eapply nth_error_In; eauto|exact X].
    + destruct (NI X).
  - exfalso. destruct (s_halted s); [discriminate|]. injection H as <-. rewrite sweep_notified in I. exact (NI I).
  - exfalso. destruct (nth_error (s_inflight s) n0) as [j|]; [|discriminate]. destruct (j_phase j); try discriminate. injection H as <-. exact (NI I).
  - exfalso. destruct (nth_error (s_inflight s) n0) as [j|]; [|discriminate]. destruct (j_phase j); try discriminate. injection H as <-. exact (NI I).
Qed.

(** ** Liveness: outstanding work is finite and never stuck. *)
Definition cmd_work (x : cmd) : nat := (1 + 3 * length (cmd_codes x))%nat.
Definition job_work (j : job) : nat := match j_phase j with Queued => 3 | Running => 2 | Done _ => 1 end.
Definition todo (s : state) : nat := (list_sum (map cmd_work (s_cmds s)) + list_sum (map job_work (s_inflight s)))%nat.
Lemma list_sum_cons x l : list_sum (x :: l) = (x + list_sum l)%nat. Proof. reflexivity. Qed.
Lemma list_sum_perm a b : Permutation a b -> list_sum a = list_sum b.
Proof. unfold list_sum. induction 1; cbn [fold_right]; lia. Qed.
Lemma admitted_jobs_work c now kd k code nid m s s' : admitted c now kd k code nid m s s' -> (list_sum (map job_work (s_inflight s')) <= 3 + list_sum (map job_work (s_inflight s)))%nat.
Proof. intros H. inversion H; subst; rewrite ?notify_nf, ?lose_nf; cbn [s_inflight set_notified set_lost set_entries insert_resident set_meta set_resident set_next_job set_pending set_dispatched set_inflight]; try lia. rewrite map_app, list_sum_app. cbn. lia. Qed.
Lemma prepare_jobs_work c io now reqs : forall i s, (list_sum (map job_work (s_inflight (handle_prepare_aot c io now i reqs s))) <= 3 * length reqs + list_sum (map job_work (s_inflight s)))%nat.
Proof.
  induction reqs as [|[k code] reqs IH]; intros i s; cbn [handle_prepare_aot length]; [lia|].
  pose proof (admitted_jobs_work _ _ _ _ _ _ _ _ _ (try_admit_cases c (io i) now Aot k code None Explicit s)). specialize (IH (S i) (try_admit c (io i) now Aot k code None Explicit s)). lia.
Qed.
Lemma work_decreases c a s s' : is_work a = true -> act c a s = Some s' -> (todo s' < todo s)%nat.
Proof.
  intros W H. destruct a; try discriminate; cbn [act] in H; unfold todo.
  - destruct (s_halted s); [discriminate|]. destruct (s_cmds s) as [|x q] eqn:Q; [discriminate|]. injection H as <-. cbn [map list_sum]. unfold list_sum at 3. cbn [fold_right]. fold (list_sum (map cmd_work q)).
    unfold cmd_work at 2. destruct x; cbn [handle cmd_codes length].
    + pose proof (try_admit_cases c (o_io o 0%nat) (o_now o) (if c_aot c then Aot else Jit) k code nid Explicit (set_cmds q s)) as H.
      pose proof (admitted_jobs_work _ _ _ _ _ _ _ _ _ H) as J. destruct (admitted_frame _ _ _ _ _ _ _ _ _ H) as (F1 & _). rewrite F1. cbn [s_cmds set_cmds s_inflight] in *. lia.
    + destruct (prepare_frame c (o_io o) (o_now o) reqs 0 (set_cmds q s)) as (F1 & _). rewrite F1.
      pose proof (prepare_jobs_work c (o_io o) (o_now o) reqs 0 (set_cmds q s)) as J. cbn [s_cmds set_cmds s_inflight] in *. lia.
    + unfold handle_clear_resident. rewrite notify_all_nf. cbn [s_cmds s_inflight set_notified set_gen set_g_discarded set_events set_entries set_meta set_resident set_cmds]. lia.
    + unfold handle_clear_persisted. destruct (s_store _); [destruct (o_io o 0%nat)|]; cbn [s_cmds s_inflight set_cmds set_store]; lia.
    + assert (W2 : s_cmds (handle_clear_resident (set_cmds q s)) = q /\ s_inflight (handle_clear_resident (set_cmds q s)) = s_inflight s) by (unfold handle_clear_resident; rewrite notify_all_nf; auto).
      destruct W2 as [W2 W3]. unfold handle_clear_persisted. destruct (s_store _); [destruct (o_io o 0%nat)|]; cbn [s_cmds s_inflight set_store]; rewrite W2, W3; lia.
    + unfold shutdown. rewrite lose_all_nf. cbn. lia.
  - destruct (s_halted s); [discriminate|]. destruct (nth_error (s_inflight s) n) as [j|] eqn:NE; [|discriminate]. destruct (j_phase j) eqn:PH; try discriminate. injection H as <-.
    pose proof (list_sum_perm _ _ (Permutation_map job_work (del_nth_perm _ _ _ NE))) as P. cbn [map] in P. unfold list_sum in P at 2. cbn [fold_right] in P. fold (list_sum (map job_work (del_nth n (s_inflight s)))) in P.
    unfold job_work in P at 2. rewrite PH in P.
    pose proof (handle_worker_result_cases c (o_io o) (o_now o) j o0 (set_inflight (del_nth n (s_inflight s)) s)) as H.
    destruct (resulted_frame _ _ _ _ _ _ H) as (F1 & _). rewrite F1. destruct (resulted_rest _ _ _ _ _ _ H) as (R1 & R2 & _). rewrite ?R1, ?R2. cbn [s_cmds s_inflight set_inflight]. lia.
  - destruct (nth_error (s_inflight s) n) as [j|] eqn:NE; [|discriminate]. destruct (j_phase j) eqn:PH; try discriminate. injection H as <-.
    pose proof (list_sum_perm _ _ (Permutation_map job_work (del_nth_perm _ _ _ NE))) as P. pose proof (list_sum_perm _ _ (Permutation_map job_work (upd_nth_perm _ _ _ (with_phase j Running) NE))) as P2.
    cbn [s_cmds s_inflight set_inflight set_queued]. rewrite P, P2. cbn [map]. rewrite !list_sum_cons. unfold job_work at 1 3. rewrite PH. cbn [j_phase with_phase]. lia.
  - destruct (nth_error (s_inflight s) n) as [j|] eqn:NE; [|discriminate]. destruct (j_phase j) eqn:PH; try discriminate. injection H as <-.
    pose proof (list_sum_perm _ _ (Permutation_map job_work (del_nth_perm _ _ _ NE))) as P. pose proof (list_sum_perm _ _ (Permutation_map job_work (upd_nth_perm _ _ _ (with_phase j (Done (outcome_of c (j_kind j) ok))) NE))) as P2.
    cbn [s_cmds s_inflight set_inflight]. rewrite P, P2. cbn [map]. rewrite !list_sum_cons. unfold job_work at 1 3. rewrite PH. cbn [j_phase with_phase]. lia.
Qed.
Lemma work_bounded c l s s' : runs c s l s' -> forallb is_work l = true -> (length l + todo s' <= todo s)%nat.
Proof.
  induction 1 as [|s a s1 l s2 F H R IH]; cbn; [lia|]. intros W. apply andb_true_iff in W as [W1 W2]. specialize (IH W2). pose proof (work_decreases _ _ _ _ W1 H). lia.
Qed.

(** After the backend thread has left its loop nothing is held. *)
Definition shut (s : state) : Prop := s_halted s = true -> s_inflight s = [] /\ s_entries s = [].
Lemma shut_pres c : pres c (fun _ _ _ => True) (fun _ => True) shut.
Proof.
  split.
  - intros t t' (E1 & E2 & E3 & E4 & E5 & E6 & E7 & E8 & E9 & E10 & E11 & E12 & E13 & E14) U. unfold shut. rewrite E3, E7, E9. exact U.
  - intros now kd k code nid m t t' _ GO H HA _ U HH. rewrite (admitted_halted _ _ _ _ _ _ _ _ _ H) in HH. congruence.
  - intros now n j o t t' N PH H HH _ U HH'. exfalso. assert (X : s_halted t' = s_halted t) by (inversion H; subst; reflexivity). congruence.
  - intros t _ U. unfold handle_clear_resident. rewrite notify_all_nf. intros HH. cbn. split; [apply U; exact HH|reflexivity].
  - intros io t _ U. unfold handle_clear_persisted. destruct (s_store t); [destruct io|]; exact U.
  - intros s0 t k _ _ _ _ _ _ _ U. rewrite evict_nf. intros HH. cbn. destruct (U HH) as [U1 U2]. rewrite U1, U2. auto.
  - intros k now t _ _ U. exact U.
  - intros now t _ U. destruct (sweep_cold_nf c now t) as (keep & lst & _ & -> & _). intros HH. cbn. destruct (U HH) as [U1 U2]. rewrite U1, U2. auto.
  - intros t _ U. unfold shutdown. rewrite lose_all_nf. intros HH. cbn. auto.
  - intros n j t N PH _ U HH. destruct (U HH) as [U1 U2]. rewrite U1 in N. destruct n; discriminate.
  - intros n j ok t N PH _ U HH. destruct (U HH) as [U1 U2]. rewrite U1 in N. destruct n; discriminate.
Qed.
Definition shut_cmds (s : state) : Prop := s_halted s = true -> s_cmds s = [].
Lemma halted_handle c o x s : s_halted s = false -> x <> Shutdown -> s_halted (handle c o x s) = false.
Proof.
  intros HH NX. destruct x; cbn [handle].
  - rewrite (admitted_halted _ _ _ _ _ _ _ _ _ (try_admit_cases c (o_io o 0%nat) (o_now o) (if c_aot c then Aot else Jit) k code nid Explicit s)). exact HH.
  - revert s HH. generalize 0%nat. induction reqs as [|[k code] reqs IH]; intros i s HH; cbn [handle_prepare_aot]; [exact HH|]. apply IH; [discriminate|].
    rewrite (admitted_halted _ _ _ _ _ _ _ _ _ (try_admit_cases c (o_io o i) (o_now o) Aot k code None Explicit s)). exact HH.
  - unfold handle_clear_resident. rewrite notify_all_nf. exact HH.
  - unfold handle_clear_persisted. destruct (s_store s); [destruct (o_io o 0%nat)|]; exact HH.
  - unfold handle_clear_persisted, handle_clear_resident. rewrite notify_all_nf. cbn. destruct (s_store s); [destruct (o_io o 0%nat)|]; exact HH.
  - congruence.
Qed.
Lemma sweep_halted c now rd order s : s_halted (sweep c now rd order s) = s_halted s.
Proof.
  unfold sweep. destruct (negb _); [reflexivity|].
  assert (I : forall l t, s_halted (fold_left (fun s k => evict k s) l t) = s_halted t).
  { induction l as [|k l IH]; intros t; cbn; [reflexivity|]. rewrite IH, evict_nf. reflexivity. }
  assert (S1 : s_halted (sweep_cold c now (sweep_idle c now (set_last_sweep now s))) = s_halted s).
  { destruct (sweep_cold_nf c now (sweep_idle c now (set_last_sweep now s))) as (keep & lst & _ & -> & _). cbn. unfold sweep_idle. destruct (c_idle c); [rewrite I|]; reflexivity. }
  destruct (_ && _); [|exact S1]. rewrite <- S1. generalize (sweep_cold c now (sweep_idle c now (set_last_sweep now s))). intros t.
  generalize (sort_by_hit (filter (fun p => is_jit t (fst p)) (order (s_meta t)))). intros l. generalize 2%nat. revert t.
  induction l as [|[k v] l IH]; intros t n; cbn; [reflexivity|]. destruct (_ <=? _); [reflexivity|]. rewrite IH, evict_nf. reflexivity.
Qed.
Lemma shut_cmds_act c a s s' : act c a s = Some s' -> shut_cmds s -> shut_cmds s'.
Proof.
  intros H U. destruct a; cbn [act] in H.
  - destruct (lookup_decide c busy k code s); injection H as <-; exact U.
  - destruct (nth_error (s_looking s) n); [|discriminate]. injection H as <-. destruct (length (s_events s) <? c_cap c)%nat; exact U.
  - injection H as <-. destruct (has k (s_resident s)); exact U.
  - destruct (nid_of x) eqn:NX; [discriminate|]. destruct (s_halted s) eqn:HH; [injection H as <-; exact U|]. destruct (length (s_cmds s) <? c_cap c)%nat; [|discriminate]. injection H as <-. intros X. cbn in X. congruence.
  - destruct (s_halted s) eqn:HH; [injection H as <-; exact U|]. destruct (length (s_cmds s) <? c_cap c)%nat; [|discriminate]. injection H as <-. intros X. cbn in X. congruence.
  - injection H as <-. exact U.
  - destruct (s_halted s) eqn:HH; [discriminate|]. destruct (s_cmds s) as [|x q] eqn:Q; [discriminate|]. injection H as <-. intros X.
    destruct x; try (rewrite halted_handle in X; [discriminate|exact HH|discriminate]). cbn [handle] in *. unfold shutdown. rewrite lose_all_nf. reflexivity.
  - destruct (s_halted s) eqn:HH; [discriminate|]. destruct (s_events s) as [|ev q]; [discriminate|]. injection H as <-. unfold handle_lookup_observed. destruct (ev_code ev).
    + destruct (has (ev_key ev) _); exact U.
    + intros X. match type of X with context [try_admit ?a1 ?a2 ?a3 ?a4 ?a5 ?a6 ?a7 ?a8 ?t0] => rewrite (admitted_halted _ _ _ _ _ _ _ _ _ (try_admit_cases a1 a2 a3 a4 a5 a6 a7 a8 t0)) in X end. cbn in X. congruence.
  - destruct (s_halted s) eqn:HH; [discriminate|]. destruct (nth_error (s_inflight s) n) as [j|]; [|discriminate]. destruct (j_phase j); try discriminate. injection H as <-.
    match goal with |- context [handle_worker_result ?a1 ?a2 ?a3 ?a4 ?a5 ?t0] => pose proof (handle_worker_result_cases a1 a2 a3 a4 a5 t0) as H; remember (handle_worker_result a1 a2 a3 a4 a5 t0) as s' end.
    intros X. exfalso. clear Heqs'. assert (Y : s_halted s' = s_halted s) by (inversion H; subst; reflexivity). congruence.
  - destruct (s_halted s) eqn:HH; [discriminate|]. injection H as <-. intros X. rewrite sweep_halted in X. congruence.
  - destruct (nth_error (s_inflight s) n) as [j|]; [|discriminate]. destruct (j_phase j); try discriminate. injection H as <-. exact U.
  - destruct (nth_error (s_inflight s) n) as [j|]; [|discriminate]. destruct (j_phase j); try discriminate. injection H as <-. exact U.
Qed.
Lemma shut_cmds_inv c l s s' : runs c s l s' -> shut_cmds s -> shut_cmds s'.
Proof. induction 1; eauto using shut_cmds_act. Qed.

Definition some_oracle : oracle := mkOracle 0 (fun _ => true).
Lemma work_enabled c s : jobs_ok s -> NoDup (map fst (s_entries s)) -> shut s -> shut_cmds s -> waiting s <> [] -> exists a s', is_work a = true /\ act c a s = Some s'.
Proof.
  intros J N S1 S2 W.
  assert (HH : s_halted s = false).
  { destruct (s_halted s) eqn:HH; [|reflexivity]. exfalso. apply W. rewrite waiting_eq. unfold jids. destruct (S1 HH) as [-> ->]. rewrite (S2 HH). reflexivity. }
  assert (X : s_cmds s <> [] \/ s_inflight s <> []).
  { destruct (s_cmds s) eqn:Q; [|left; discriminate]. right. intros I. apply W. rewrite waiting_eq. unfold jids. rewrite Q, I. cbn.
    destruct (pids (s_entries s)) as [|n l] eqn:P; [reflexivity|]. exfalso.
    assert (In n (pids (s_entries s))) as X by (rewrite P; left; reflexivity). unfold pids in X. apply somes_in in X. apply in_flat_map in X as ([k e] & X1 & X2). cbn in X2.
    assert (G : get k (s_entries s) = Some e) by (apply (in_kget key_eqb KE); assumption).
    destruct (e_phase e) eqn:PH.
    - rewrite (jo_cold _ J k e G PH) in X2. destruct X2.
    - destruct (jo_work _ J k e G PH) as (j & J1 & _). rewrite I in J1. destruct J1. }
  destruct X as [X|X].
  - destruct (s_cmds s) as [|x q] eqn:Q; [congruence|]. exists (BCmd some_oracle). cbn. rewrite HH, Q. eauto.
  - destruct (s_inflight s) as [|j q] eqn:Q; [congruence|]. destruct (j_phase j) eqn:PH.
    + exists (WStart 0). cbn. rewrite Q. cbn. rewrite PH. eauto.
    + exists (WFinish 0 true). cbn. rewrite Q. cbn. rewrite PH. eauto.
    + exists (BResult 0 some_oracle). cbn [act]. rewrite HH, Q. cbn [nth_error]. rewrite PH. eauto.
Qed.
