(** The theorems about whole histories from the initial state. *)
From Verif Require Import RuntimeModel RuntimeSpec RuntimeProof RuntimeInv RuntimeInv2 RuntimeInv3 RuntimeInv4 RuntimeInv5 RuntimeInv6.
Open Scope Z_scope.

(** ** Facts about single steps. *)
Lemma handle_supplied c o x s : s_supplied (handle c o x s) = s_supplied s.
Proof.
  destruct x; cbn [handle].
  - destruct (admitted_frame _ _ _ _ _ _ _ _ _ (try_admit_cases c (o_io o 0%nat) (o_now o) (if c_aot c then Aot else Jit) k code nid Explicit s)) as (_ & _ & _ & _ & _ & _ & _ & _ & _ & _ & _ & F & _). exact F.
  - destruct (prepare_frame c (o_io o) (o_now o) reqs 0 s) as (_ & _ & _ & _ & _ & _ & _ & _ & _ & _ & _ & F & _). exact F.
  - unfold handle_clear_resident. rewrite notify_all_nf. reflexivity.
  - unfold handle_clear_persisted. destruct (s_store s); [destruct (o_io o 0%nat)|]; reflexivity.
  - unfold handle_clear_persisted, handle_clear_resident. rewrite notify_all_nf. cbn. destruct (s_store s); [destruct (o_io o 0%nat)|]; reflexivity.
  - unfold shutdown. rewrite lose_all_nf. reflexivity.
Qed.
Lemma supplied_act c a s s' p : act c a s = Some s' -> In p (s_supplied s') -> In p (s_supplied s) \/ In p (supplies a).
Proof.
  intros H I. destruct a; cbn [act supplies] in *.
  - destruct (lookup_decide c busy k code s); injection H as <-; auto. destruct I as [<-|I]; cbn; auto.
  - destruct (nth_error (s_looking s) n); [|discriminate]. injection H as <-. destruct (length (s_events s) <? c_cap c)%nat; auto.
  - injection H as <-. destruct (has k (s_resident s)); auto.
  - destruct (nid_of x) eqn:NX; [discriminate|]. destruct (s_halted s); [injection H as <-; auto|]. destruct (length (s_cmds s) <? c_cap c)%nat; [|discriminate]. injection H as <-. cbn in I. apply in_app_iff in I. tauto.
  - destruct (s_halted s); [injection H as <-; auto|]. destruct (length (s_cmds s) <? c_cap c)%nat; [|discriminate]. injection H as <-. cbn in I. destruct I as [<-|I]; cbn; auto.
  - injection H as <-. auto.
  - destruct (s_halted s); [discriminate|]. destruct (s_cmds s) as [|x q]; [discriminate|]. injection H as <-. rewrite handle_supplied in I. auto.
  - destruct (s_halted s); [discriminate|]. destruct (s_events s) as [|ev q]; [discriminate|]. injection H as <-. unfold handle_lookup_observed in I. destruct (ev_code ev).
    + destruct (has (ev_key ev) _); auto.
    + match type of I with context [try_admit ?a1 ?a2 ?a3 ?a4 ?a5 ?a6 ?a7 ?a8 ?t0] => destruct (admitted_frame _ _ _ _ _ _ _ _ _ (try_admit_cases a1 a2 a3 a4 a5 a6 a7 a8 t0)) as (_ & _ & _ & _ & _ & _ & _ & _ & _ & _ & _ & F & _) end.
      rewrite F in I. auto.
  - destruct (s_halted s); [discriminate|]. destruct (nth_error (s_inflight s) n) as [j|]; [|discriminate]. destruct (j_phase j); try discriminate. injection H as <-.
    match type of I with context [handle_worker_result ?a1 ?a2 ?a3 ?a4 ?a5 ?t0] => destruct (resulted_frame _ _ _ _ _ _ (handle_worker_result_cases a1 a2 a3 a4 a5 t0)) as (_ & _ & _ & _ & _ & _ & _ & _ & _ & _ & _ & F & _) end.
    rewrite F in I. auto.
  - destruct (s_halted s); [discriminate|]. injection H as <-. destruct (sweep_frame c now rd order s) as (_ & _ & _ & _ & _ & _ & _ & _ & _ & _ & _ & F & _). rewrite F in I. auto.
  - destruct (nth_error (s_inflight s) n) as [j|]; [|discriminate]. destruct (j_phase j); try discriminate. injection H as <-. auto.
  - destruct (nth_error (s_inflight s) n) as [j|]; [|discriminate]. destruct (j_phase j); try discriminate. injection H as <-. auto.
Qed.
Lemma supplied_runs c l s s' p : runs c s l s' -> In p (s_supplied s') -> In p (s_supplied s) \/ exists a, In a l /\ In p (supplies a).
Proof.
  induction 1 as [|s a s1 l s2 F H R IH]; [auto|]. intros I. apply IH in I as [I|(a' & I1 & I2)]; [|right; exists a'; cbn; auto].
  apply (supplied_act _ _ _ _ _ H) in I as [I|I]; [auto|]. right. exists a. cbn. auto.
Qed.
Lemma sync_runs c l s s' : runs c s l s' -> s_next_sync s' = (s_next_sync s + length (filter is_sync l))%nat.
Proof.
  induction 1 as [|s a s1 l s2 F H R IH]; cbn [filter]; [cbn; lia|]. rewrite IH. destruct (requests_act _ _ _ _ H) as [(_ & R2 & _)|(k & code & -> & _ & R2 & _)]; rewrite R2.
  - assert (X : is_sync a = false); [|rewrite X; reflexivity]. destruct a; try reflexivity. cbn [act] in H. destruct (s_halted s); [injection H as <-; cbn in R2; lia|]. destruct (length (s_cmds s) <? c_cap c)%nat; [|discriminate]. injection H as <-. cbn in R2. lia.
  - cbn. lia.
Qed.

(** The generation and the presence of a store. *)
Definition is_clear (x : cmd) : bool := match x with ClearResident | ClearAll => true | _ => false end.
Lemma cmds_act c a s s' x : act c a s = Some s' -> In x (s_cmds s') -> In x (s_cmds s) \/ a = ASend x \/ is_clear x = false.
Proof.
  intros H I. destruct a; cbn [act] in *.
  - destruct (lookup_decide c busy k code s); injection H as <-; auto.
  - destruct (nth_error (s_looking s) n); [|discriminate]. injection H as <-. destruct (length (s_events s) <? c_cap c)%nat; auto.
  - injection H as <-. destruct (has k (s_resident s)); auto.
  - destruct (nid_of x0) eqn:NX; [discriminate|]. destruct (s_halted s); [injection H as <-; auto|]. destruct (length (s_cmds s) <? c_cap c)%nat; [|discriminate]. injection H as <-. cbn in I. apply in_app_iff in I as [I|[<-|[]]]; auto.
  - destruct (s_halted s); [injection H as <-; auto|]. destruct (length (s_cmds s) <? c_cap c)%nat; [|discriminate]. injection H as <-. cbn in I. apply in_app_iff in I as [I|[<-|[]]]; auto.
  - injection H as <-. auto.
  - destruct (s_halted s); [discriminate|]. destruct (s_cmds s) as [|y q]; [discriminate|]. injection H as <-. left. right. apply (handle_frame c o y (set_cmds q s)). exact I.
  - destruct (s_halted s); [discriminate|]. destruct (s_events s) as [|ev q]; [discriminate|]. injection H as <-. unfold handle_lookup_observed in I. destruct (ev_code ev).
    + destruct (has (ev_key ev) _); auto.
    + match type of I with context [try_admit ?a1 ?a2 ?a3 ?a4 ?a5 ?a6 ?a7 ?a8 ?t0] => destruct (admitted_frame _ _ _ _ _ _ _ _ _ (try_admit_cases a1 a2 a3 a4 a5 a6 a7 a8 t0)) as (F & _) end.
      rewrite F in I. auto.
  - destruct (s_halted s); [discriminate|]. destruct (nth_error (s_inflight s) n) as [j|]; [|discriminate]. destruct (j_phase j); try discriminate. injection H as <-.
    match type of I with context [handle_worker_result ?a1 ?a2 ?a3 ?a4 ?a5 ?t0] => destruct (resulted_frame _ _ _ _ _ _ (handle_worker_result_cases a1 a2 a3 a4 a5 t0)) as (F & _) end.
    rewrite F in I. auto.
  - destruct (s_halted s); [discriminate|]. injection H as <-. destruct (sweep_frame c now rd order s) as (F & _). rewrite F in I. auto.
  - destruct (nth_error (s_inflight s) n) as [j|]; [|discriminate]. destruct (j_phase j); try discriminate. injection H as <-. auto.
  - destruct (nth_error (s_inflight s) n) as [j|]; [|discriminate]. destruct (j_phase j); try discriminate. injection H as <-. auto.
Qed.
Lemma admitted_gs c now kd k code nid m s s' : admitted c now kd k code nid m s s' -> s_gen s' = s_gen s /\ (s_store s' = None <-> s_store s = None).
Proof. intros H. inversion H; subst; rewrite ?notify_nf, ?lose_nf; cbn; split; reflexivity. Qed.
Lemma gs_evict k s : s_gen (evict k s) = s_gen s /\ s_store (evict k s) = s_store s.
Proof. rewrite evict_nf. auto. Qed.
Lemma gs_sweep c now rd order s : s_gen (sweep c now rd order s) = s_gen s /\ s_store (sweep c now rd order s) = s_store s.
Proof.
  set (Q := fun t => s_gen t = s_gen s /\ s_store t = s_store s).
  assert (E : forall k t, Q t -> Q (evict k t)) by (intros k t [A B]; destruct (gs_evict k t); split; congruence).
  assert (I : forall l t, Q t -> Q (fold_left (fun s k => evict k s) l t)) by (induction l; cbn; auto).
  change (Q (sweep c now rd order s)). unfold sweep. destruct (negb _); [split; reflexivity|].
  assert (S1 : Q (sweep_cold c now (sweep_idle c now (set_last_sweep now s)))).
  { destruct (sweep_cold_nf c now (sweep_idle c now (set_last_sweep now s))) as (keep & lst & _ & -> & _).
    assert (S0 : Q (sweep_idle c now (set_last_sweep now s))) by (unfold sweep_idle; destruct (c_idle c); [apply I|]; split; reflexivity). exact S0. }
  destruct (_ && _); [|exact S1]. revert S1. generalize (sweep_cold c now (sweep_idle c now (set_last_sweep now s))). intros t.
  generalize (sort_by_hit (filter (fun p => is_jit t (fst p)) (order (s_meta t)))). intros l. generalize 2%nat. revert t.
  induction l as [|[k v] l IH]; intros t n S1; cbn; [exact S1|]. destruct (_ <=? _); [exact S1|]. apply IH, E, S1.
Qed.
Lemma gs_act c a s s' : act c a s = Some s' ->
  (s_store s' = None <-> s_store s = None) /\ (s_gen s' = s_gen s \/ exists o x q, a = BCmd o /\ s_cmds s = x :: q /\ is_clear x = true).
Proof.
  intros H. destruct a; cbn [act] in *.
  - destruct (lookup_decide c busy k code s); injection H as <-; split; auto; reflexivity.
  - destruct (nth_error (s_looking s) n); [|discriminate]. injection H as <-. destruct (length (s_events s) <? c_cap c)%nat; split; auto; reflexivity.
  - injection H as <-. destruct (has k (s_resident s)); split; auto; reflexivity.
  - destruct (nid_of x) eqn:NX; [discriminate|]. destruct (s_halted s); [injection H as <-; split; auto; reflexivity|]. destruct (length (s_cmds s) <? c_cap c)%nat; [|discriminate]. injection H as <-. split; auto; reflexivity.
  - destruct (s_halted s); [injection H as <-; split; auto; reflexivity|]. destruct (length (s_cmds s) <? c_cap c)%nat; [|discriminate]. injection H as <-. split; auto; reflexivity.
  - injection H as <-. split; auto; reflexivity.
  - destruct (s_halted s); [discriminate|]. destruct (s_cmds s) as [|x q]; [discriminate|]. injection H as <-. destruct x; cbn [handle].
    + destruct (admitted_gs _ _ _ _ _ _ _ _ _ (try_admit_cases c (o_io o 0%nat) (o_now o) (if c_aot c then Aot else Jit) k code nid Explicit (set_cmds q s))) as [G S]. auto.
    + assert (X : forall reqs i t, s_gen (handle_prepare_aot c (o_io o) (o_now o) i reqs t) = s_gen t /\ (s_store (handle_prepare_aot c (o_io o) (o_now o) i reqs t) = None <-> s_store t = None)).
      { induction reqs0 as [|[k1 code] l IH]; intros i t; cbn [handle_prepare_aot]; [split; reflexivity|].
        destruct (admitted_gs _ _ _ _ _ _ _ _ _ (try_admit_cases c (o_io o i) (o_now o) Aot k1 code None Explicit t)) as [G S1]. destruct (IH (S i) (try_admit c (o_io o i) (o_now o) Aot k1 code None Explicit t)) as [G' S']. rewrite G', S'. auto. }
      destruct (X reqs 0%nat (set_cmds q s)) as [G S]. auto.
    + unfold handle_clear_resident. rewrite notify_all_nf. split; [reflexivity|]. right. exists o, ClearResident, q. auto.
    + unfold handle_clear_persisted. cbn. destruct (s_store s) eqn:ST; [destruct (o_io o 0%nat)|]; split; cbn; auto; rewrite ?ST; split; congruence.
    + unfold handle_clear_persisted, handle_clear_resident. rewrite notify_all_nf. cbn. split; [|right; exists o, ClearAll, q; auto]. destruct (s_store s) eqn:ST; [destruct (o_io o 0%nat)|]; cbn; rewrite ?ST; split; congruence.
    + unfold shutdown. rewrite lose_all_nf. split; auto; reflexivity.
  - destruct (s_halted s); [discriminate|]. destruct (s_events s) as [|ev q]; [discriminate|]. injection H as <-. unfold handle_lookup_observed. destruct (ev_code ev).
    + destruct (has (ev_key ev) _); split; auto; reflexivity.
    + match goal with |- context [try_admit ?a1 ?a2 ?a3 ?a4 ?a5 ?a6 ?a7 ?a8 ?t0] => destruct (admitted_gs _ _ _ _ _ _ _ _ _ (try_admit_cases a1 a2 a3 a4 a5 a6 a7 a8 t0)) as [G S] end. auto.
  - destruct (s_halted s); [discriminate|]. destruct (nth_error (s_inflight s) n) as [j|]; [|discriminate]. destruct (j_phase j); try discriminate. injection H as <-.
    match goal with |- context [handle_worker_result ?a1 ?a2 ?a3 ?a4 ?a5 ?t0] => pose proof (handle_worker_result_cases a1 a2 a3 a4 a5 t0) as H; remember (handle_worker_result a1 a2 a3 a4 a5 t0) as s' eqn:ES; clear ES end.
    inversion H; subst; cbn in *; split; auto; try reflexivity; split; congruence.
  - destruct (s_halted s); [discriminate|]. injection H as <-. destruct (gs_sweep c now rd order s) as [G S]. rewrite G, S. split; auto; reflexivity.
  - destruct (nth_error (s_inflight s) n) as [j|]; [|discriminate]. destruct (j_phase j); try discriminate. injection H as <-. split; auto; reflexivity.
  - destruct (nth_error (s_inflight s) n) as [j|]; [|discriminate]. destruct (j_phase j); try discriminate. injection H as <-. split; auto; reflexivity.
Qed.
Lemma store_runs c l s s' : runs c s l s' -> (s_store s' = None <-> s_store s = None).
Proof. induction 1 as [|s a s1 l s2 F H R IH]; [reflexivity|]. rewrite IH. apply (gs_act _ _ _ _ H). Qed.
Lemma gen_runs c l s s' : runs c s l s' -> existsb asks_clear l = false -> existsb is_clear (s_cmds s) = false -> s_gen s' = s_gen s.
Proof.
  induction 1 as [|s a s1 l s2 F H R IH]; [auto|]. cbn. intros NC NQ. apply orb_false_iff in NC as [NC1 NC2]. rewrite IH; [|exact NC2|].
  - destruct (gs_act _ _ _ _ H) as [_ [G|(o & x & q & _ & Q & X)]]; [exact G|]. rewrite Q in NQ. cbn in NQ. rewrite X in NQ. discriminate.
  - destruct (existsb is_clear (s_cmds s1)) eqn:E; [|reflexivity]. apply existsb_exists in E as (x & I & E).
    apply (cmds_act _ _ _ _ _ H) in I as [I|[->|I]]; [|destruct x; discriminate|congruence].
    assert (existsb is_clear (s_cmds s) = true) by (apply existsb_exists; eauto). congruence.
Qed.

(** ** The initial state. *)
Section FromStart.
  Context (c : config) (now : Z) (pre : list (key * program)) (st : option (list (akey * func))) (en : bool).
  Definition pre_ok : Prop := NoDup (map fst pre) /\ forall k p, In (k, p) pre -> p_key p = k.
  Notation s0 := (start now pre st en).

  Lemma start_maps : NoDup (map fst pre) -> maps_ok s0.
  Proof.
    intros N. split; cbn; auto; try constructor.
    - rewrite map_map. exact N.
    - intros k. unfold has. clear N. induction pre as [|[k' p] l IH]; cbn; [reflexivity|]. unfold kget in *. cbn. destruct (key_eqb k k'); [reflexivity|]. exact IH.
  Qed.
  Lemma start_jobs : jobs_ok s0 /\ NoDup (map fst (s_entries s0)).
  Proof. split; [|constructor]. split; cbn; try constructor; try tauto; try discriminate. Qed.
  Lemma start_base : NoDup (map fst pre) -> base c s0.
  Proof. intros N. split; [split; [apply start_maps; exact N|]|apply start_jobs]. intros _ k _. reflexivity. Qed.
  Lemma start_counters : counters c s0.
  Proof. split; cbn; auto; lia. Qed.
  Lemma start_unique : unique c s0.
  Proof. intros _ _. cbn. split; [constructor|tauto]. Qed.
  Lemma start_stat : stat_ok s0.
  Proof. intros _. cbn. auto. Qed.
  Lemma start_no_loss : no_loss c s0.
  Proof. intros _ _. reflexivity. Qed.
  Lemma start_conserved : conserved s0.
  Proof. intros n. reflexivity. Qed.
  Lemma start_tied : tied s0.
  Proof. split; cbn; try tauto. split; cbn; tauto. Qed.
  Lemma start_shut : shut s0 /\ shut_cmds s0.
  Proof. split; intros H; discriminate. Qed.
  Lemma start_room : room c 0 s0.
  Proof. split; cbn; lia. Qed.
  Lemma start_accounted : accounted [] s0.
  Proof. split; cbn; try reflexivity; try tauto. Qed.
  Definition fresh_funcs : Prop := (forall k p, In (k, p) pre -> f_job (p_func p) = None) /\ (forall a f s, st = Some s -> In (a, f) s -> f_job f = None).
  Lemma start_unborn : fresh_funcs -> unborn s0.
  Proof. intros [A B] f n [(k & p & I & <-)|(s & a & E & I)] J; cbn in *; [rewrite (A _ _ I) in J|rewrite (B _ _ _ E I) in J]; discriminate. Qed.

  Context (l : list action) (s : state).
  Hypothesis R : runs c s0 l s.
  Lemma base_runs : NoDup (map fst pre) -> base c s.
  Proof. intros N. apply (core_runs c _ _ (base_pres c)) with (l := l) (s := s0); auto using start_base. Qed.
  Lemma unique_runs : NoDup (map fst pre) -> unique c s.
  Proof. intros N. apply (core_runs c _ _ (pres_and _ _ _ _ (base_pres c) (unique_pres c)) l s0 s); auto using start_base, start_unique. Qed.
  Lemma stat_runs : NoDup (map fst pre) -> stat_ok s.
  Proof. intros N. apply (core_runs c _ _ (pres_and _ _ _ _ (base_pres c) (stat_pres c)) l s0 s); auto using start_base, start_stat. Qed.
  Lemma no_loss_runs : NoDup (map fst pre) -> no_loss c s.
  Proof. intros N. apply (core_runs c _ _ (pres_and _ _ _ _ (base_pres c) (no_loss_pres c)) l s0 s); auto using start_base, start_no_loss. Qed.
  Lemma shut_runs : shut s /\ shut_cmds s.
  Proof. split; [apply (core_runs c _ _ (shut_pres c) l s0 s); auto; apply start_shut|eapply shut_cmds_inv; eauto; apply start_shut]. Qed.
  Lemma jobs_runs : jobs_ok s /\ NoDup (map fst (s_entries s)).
  Proof. eapply jobs_inv; [exact R|]. apply start_jobs. Qed.
  Lemma unborn_runs : fresh_funcs -> unborn s.
  Proof. intros F. apply (core_runs c _ _ (pres_and _ _ _ _ (jobs_pres c) (unborn_pres c)) l s0 s); auto using start_jobs, start_unborn. Qed.
End FromStart.

(** ** The barrier. *)
Lemma clear_cuts c o x q s s1 : s_cmds s = x :: q -> is_clear x = true -> act c (BCmd o) s = Some s1 -> jobs_ok s -> unborn s ->
  cut (fun n => In n (map j_id (s_inflight s))) s1 /\
  (s_store s = None \/ (x = ClearAll /\ o_io o 0%nat = true) -> cut (fun n => (n < s_next_job s)%nat) s1).
Proof.
  intros Q X H J U. cbn [act] in H. destruct (s_halted s); [discriminate|]. rewrite Q in H. injection H as <-.
  set (t := handle_clear_resident (set_cmds q s)).
  assert (T : s_resident t = [] /\ s_store t = s_store s /\ s_inflight t = s_inflight s /\ s_gen t = S (s_gen s) /\ s_next_job t = s_next_job s) by (unfold t, handle_clear_resident; rewrite notify_all_nf; auto).
  destruct T as (T1 & T2 & T3 & T4 & T5).
  assert (V : s_resident (handle c o x (set_cmds q s)) = [] /\ (s_store (handle c o x (set_cmds q s)) = s_store s \/ s_store (handle c o x (set_cmds q s)) = Some []) /\
    s_inflight (handle c o x (set_cmds q s)) = s_inflight s /\ s_gen (handle c o x (set_cmds q s)) = S (s_gen s) /\ s_next_job (handle c o x (set_cmds q s)) = s_next_job s /\
    (s_store s = None \/ (x = ClearAll /\ o_io o 0%nat = true) -> s_store (handle c o x (set_cmds q s)) = None \/ s_store (handle c o x (set_cmds q s)) = Some [])).
  { destruct x; try discriminate; cbn [handle]; fold t.
    - repeat split; auto. intros [E|[E _]]; [left; congruence|discriminate].
    - unfold handle_clear_persisted. rewrite T2. destruct (s_store s) eqn:ST; [destruct (o_io o 0%nat)|]; cbn; rewrite ?T1, ?T2, ?T3, ?T4, ?T5; repeat split; auto.
      intros [E|[_ E]]; discriminate. }
  destruct V as (V1 & V2 & V3 & V4 & V5 & V6). split.
  - intros n Dn. rewrite V3, V4, V5. split; [apply in_map_iff in Dn as (j & <- & I); apply (jo_lt _ J); exact I|]. split; [|intros j I _; apply (jo_lt _ J) in I; lia].
    intros f [(k & p & I & _)|(s' & a & E & I)] FJ; [rewrite V1 in I; destruct I|]. destruct V2 as [V2|V2]; rewrite V2 in E; [|injection E as <-; destruct I].
    destruct (U f n) as [_ U2]; [right; eauto|exact FJ|]. exact (U2 Dn).
  - intros HS. specialize (V6 HS). intros n Dn. rewrite V3, V4, V5. split; [exact Dn|]. split; [|intros j I _; apply (jo_lt _ J) in I; lia].
    intros f [(k & p & I & _)|(s' & a & E & I)] FJ; [rewrite V1 in I; destruct I|]. destruct V6 as [V6|V6]; rewrite V6 in E; [discriminate|injection E as <-; destruct I].
Qed.
Lemma cut_runs c D l s s' : runs c s l s' -> cut D s -> cut D s'.
Proof. apply (core_runs c _ _ (cut_pres c D)). auto. Qed.

(** ** An explicit request is dispatched whatever its hotness. *)
Lemma explicit_dispatch c o s k code nid q :
  s_halted s = false -> s_cmds s = CompileJit k code nid :: q -> has k (s_resident s) = false -> should_compile c code = true ->
  (forall e, get k (s_entries s) = Some e -> e_phase e = Cold) -> (s_pending s < c_maxpending c)%nat -> (0 < c_workers c)%nat -> (s_queued s < c_workers c * c_qcap c)%nat ->
  (c_aot c = true -> s_store s = None) ->
  exists s' j, act c (BCmd o) s = Some s' /\ s_inflight s' = s_inflight s ++ [j] /\ j_key j = k /\ j_nid j = nid /\ j_id j = s_next_job s.
Proof.
  intros HH Q HR SC EC PD WK QU ST. cbn [act]. rewrite HH, Q. cbn [handle]. unfold try_admit. cbn [s_resident set_cmds]. rewrite HR, SC. cbn [negb].
  assert (L : match (if c_aot c then Aot else Jit) with Aot => try_load_persisted_aot c (o_io o 0%nat) (o_now o) k (set_cmds q s) | Jit => (false, set_cmds q s) end = (false, set_cmds q s)).
  { destruct (c_aot c); [|reflexivity]. unfold try_load_persisted_aot. cbn. rewrite (ST eq_refl). reflexivity. }
  rewrite L. unfold admit_entry. cbn [s_entries set_cmds].
  assert (EP : e_phase (match get k (s_entries s) with Some e => e | None => mkEntry 0 Cold code (o_now o) [] end) = Cold) by (destruct (get k (s_entries s)) eqn:G; [eauto|reflexivity]).
  rewrite EP. cbn [s_pending set_entries set_cmds]. destruct (c_maxpending c <=? s_pending s)%nat eqn:E1; [apply Nat.leb_le in E1; lia|].
  unfold try_send. destruct (c_workers c =? 0)%nat eqn:E2; [apply Nat.eqb_eq in E2; lia|]. cbn [s_queued set_entries set_cmds].
  destruct (c_workers c * c_qcap c <=? s_queued s)%nat eqn:E3; [apply Nat.leb_le in E3; lia|]. eexists. eexists. split; [reflexivity|]. cbn. repeat split; reflexivity.
Qed.

(** ** Answers of `get_compiled_tracked`. *)
Definition is_tracked (a : action) : bool := match a with AGetTracked _ => true | _ => false end.
Lemma handle_tracked c o x s : s_g_tracked (handle c o x s) = s_g_tracked s.
Proof.
  destruct x; cbn [handle].
  - destruct (admitted_frame _ _ _ _ _ _ _ _ _ (try_admit_cases c (o_io o 0%nat) (o_now o) (if c_aot c then Aot else Jit) k code nid Explicit s)) as (_ & _ & _ & _ & _ & _ & _ & _ & _ & _ & F & _). exact F.
  - destruct (prepare_frame c (o_io o) (o_now o) reqs 0 s) as (_ & _ & _ & _ & _ & _ & _ & _ & _ & _ & F & _). exact F.
  - unfold handle_clear_resident. rewrite notify_all_nf. reflexivity.
  - unfold handle_clear_persisted. destruct (s_store s); [destruct (o_io o 0%nat)|]; reflexivity.
  - unfold handle_clear_persisted, handle_clear_resident. rewrite notify_all_nf. cbn. destruct (s_store s); [destruct (o_io o 0%nat)|]; reflexivity.
  - unfold shutdown. rewrite lose_all_nf. reflexivity.
Qed.
Lemma tracked_act c a s s' : act c a s = Some s' -> length (s_g_tracked s') = (length (s_g_tracked s) + if is_tracked a then 1 else 0)%nat.
Proof.
  intros H. destruct a; cbn [act is_tracked] in *; try rewrite Nat.add_0_r.
  - destruct (lookup_decide c busy k code s); injection H as <-; reflexivity.
  - destruct (nth_error (s_looking s) n); [|discriminate]. injection H as <-. destruct (length (s_events s) <? c_cap c)%nat; reflexivity.
  - injection H as <-. destruct (has k (s_resident s)); cbn; lia.
  - destruct (nid_of x) eqn:NX; [discriminate|]. destruct (s_halted s); [injection H as <-; reflexivity|]. destruct (length (s_cmds s) <? c_cap c)%nat; [|discriminate]. injection H as <-. reflexivity.
  - destruct (s_halted s); [injection H as <-; reflexivity|]. destruct (length (s_cmds s) <? c_cap c)%nat; [|discriminate]. injection H as <-. reflexivity.
  - injection H as <-. reflexivity.
  - destruct (s_halted s); [discriminate|]. destruct (s_cmds s) as [|x q]; [discriminate|]. injection H as <-. rewrite handle_tracked. reflexivity.
  - destruct (s_halted s); [discriminate|]. destruct (s_events s) as [|ev q]; [discriminate|]. injection H as <-. unfold handle_lookup_observed. destruct (ev_code ev).
    + destruct (has (ev_key ev) _); reflexivity.
    + match goal with |- context [try_admit ?a1 ?a2 ?a3 ?a4 ?a5 ?a6 ?a7 ?a8 ?t0] => destruct (admitted_frame _ _ _ _ _ _ _ _ _ (try_admit_cases a1 a2 a3 a4 a5 a6 a7 a8 t0)) as (_ & _ & _ & _ & _ & _ & _ & _ & _ & _ & F & _) end.
      rewrite F. reflexivity.
  - destruct (s_halted s); [discriminate|]. destruct (nth_error (s_inflight s) n) as [j|]; [|discriminate]. destruct (j_phase j); try discriminate. injection H as <-.
    match goal with |- context [handle_worker_result ?a1 ?a2 ?a3 ?a4 ?a5 ?t0] => destruct (resulted_frame _ _ _ _ _ _ (handle_worker_result_cases a1 a2 a3 a4 a5 t0)) as (_ & _ & _ & _ & _ & _ & _ & _ & _ & _ & F & _) end.
    rewrite F. reflexivity.
  - destruct (s_halted s); [discriminate|]. injection H as <-. destruct (sweep_frame c now rd order s) as (_ & _ & _ & _ & _ & _ & _ & _ & _ & _ & F & _). rewrite F. reflexivity.
  - destruct (nth_error (s_inflight s) n) as [j|]; [|discriminate]. destruct (j_phase j); try discriminate. injection H as <-. reflexivity.
  - destruct (nth_error (s_inflight s) n) as [j|]; [|discriminate]. destruct (j_phase j); try discriminate. injection H as <-. reflexivity.
Qed.
Lemma tracked_runs c l s s' : runs c s l s' -> length (s_g_tracked s') = (length (s_g_tracked s) + length (filter is_tracked l))%nat.
Proof.
  induction 1 as [|s a s1 l s2 F H R IH]; [cbn; lia|]. rewrite IH, (tracked_act _ _ _ _ H). cbn [filter]. destruct (is_tracked a); cbn [length]; lia.
Qed.
Lemma count_split {A} (f : A -> bool) l : (count f l + count (fun x => negb (f x)) l = length l)%nat.
Proof. unfold count. induction l as [|x l IH]; cbn; [reflexivity|]. destruct (f x); cbn; lia. Qed.

(** After a clear that leaves no stored artifact, everything visible was compiled later. *)
Lemma cleared_later c pre st l now en s x o q s1 l2 s2 f : fresh_funcs pre st -> (forall k p, In (k, p) pre -> p_key p = k) ->
  runs c (start now pre st en) l s -> s_cmds s = x :: q -> is_clear x = true -> act c (BCmd o) s = Some s1 ->
  s_store s = None \/ (x = ClearAll /\ o_io o 0%nat = true) -> runs c s1 l2 s2 -> visible s2 f -> exists n, f_job f = Some n /\ (s_next_job s <= n)%nat.
Proof.
  intros F PK R Q X H HS R2 V.
  assert (J : jobs_ok s) by (eapply jobs_runs; eauto). assert (U : unborn s) by (eapply unborn_runs; eauto).
  destruct (clear_cuts _ _ _ _ _ _ Q X H J U) as [_ C]. specialize (C HS). apply (cut_runs _ _ _ _ _ R2) in C.
  assert (P : prov pre st s) by (eapply prov_runs; [exact R|apply prov_start; exact PK]).
  assert (P1 : prov pre st s1) by (apply (prov_runs c pre st [BCmd o] s s1); [apply runs_step with (s1 := s1); [exact I|exact H|constructor]|exact P]).
  assert (E : s_resident s1 = [] /\ (s_store s1 = None \/ s_store s1 = Some [])).
  { clear - H Q X HS. cbn [act] in H. destruct (s_halted s); [discriminate|]. rewrite Q in H. injection H as <-. destruct x; try discriminate; cbn [handle]; unfold handle_clear_persisted, handle_clear_resident; rewrite ?notify_all_nf; cbn.
    - split; [reflexivity|]. destruct HS as [HS|[HS _]]; [auto|discriminate].
    - destruct HS as [HN|[_ HI]]; [rewrite HN; cbn; auto|]. rewrite HI. destruct (s_store s) eqn:ST; cbn; auto. }
  assert (P2 : prov [] (s_store s1) s1).
  { destruct P1 as [[A1 A2 A3 A4] B D]. destruct E as [E1 E2]. split; [split|..]; auto.
    - rewrite E1. intros k p [].
    - intros st' k o' f' S' I'. destruct E2 as [E2|E2]; rewrite E2 in S'; [discriminate|]. injection S' as <-. destruct I'. }
  apply (prov_runs _ _ _ _ _ _ R2) in P2. destruct P2 as [[A1 A2 _ _] _ _].
  assert (O : exists k, origin [] (s_store s1) (s_supplied s2) k f).
  { destruct V as [(k & p & I & <-)|(st' & [k o'] & E' & I)]; exists k; [apply A1; exact I|eapply A2; eauto]. }
  destruct O as (k & [(n & code & -> & _)|[(st' & o' & E' & I)|(p & [] & _)]]).
  - exists n. split; [reflexivity|]. destruct (Nat.le_gt_cases (s_next_job s) n) as [L|L]; [exact L|]. exfalso. apply (C n) in L. destruct L as (_ & L & _). apply (L _ V). reflexivity.
  - destruct E as [_ [E|E]]; rewrite E in E'; [discriminate|]. injection E' as <-. destruct I.
Qed.

(** Without clears, every job in flight is of the current generation. *)
Lemma gen_jobs c now pre st en l s j : runs c (start now pre st en) l s -> existsb asks_clear l = false -> In j (s_inflight s) -> j_gen j = s_gen s.
Proof.
  intros R NC I. assert (G : s_gen s = 0%nat) by (rewrite (gen_runs _ _ _ _ R NC eq_refl); reflexivity).
  destruct (jobs_runs _ _ _ _ _ _ _ R) as [J _]. apply (jo_lt _ J) in I. lia.
Qed.
