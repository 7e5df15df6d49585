(** More invariants of the runtime backend: provenance of programs (C27), clear as a barrier (C28), unique
    jobs (C29), the pending statistic (C32), lookup accounting (C36), bounds on entries (C31). *)
From Verif Require Import RuntimeModel RuntimeSpec RuntimeProof RuntimeInv.
Open Scope Z_scope.

(** ** Frame of the handlers. *)
Definition same_queues (s s' : state) : Prop :=
  s_cmds s' = s_cmds s /\ s_events s' = s_events s /\ s_looking s' = s_looking s /\ s_hits s' = s_hits s /\ s_misses s' = s_misses s /\
  s_dropped s' = s_dropped s /\ s_next_look s' = s_next_look s /\ s_g_processed s' = s_g_processed s /\ s_g_overflow s' = s_g_overflow s /\
  s_g_discarded s' = s_g_discarded s /\ s_g_tracked s' = s_g_tracked s /\ s_supplied s' = s_supplied s /\
  s_next_sync s' = s_next_sync s /\ s_requests s' = s_requests s.
Lemma sq_refl s : same_queues s s. Proof. repeat split. Qed.
Lemma sq_trans a b d : same_queues a b -> same_queues b d -> same_queues a d.
Proof. intros H1 H2. repeat match goal with H : same_queues _ _ |- _ => destruct H as (? & ? & ? & ? & ? & ? & ? & ? & ? & ? & ? & ? & ? & ?) end. repeat split; congruence. Qed.

Lemma admitted_frame c now kd k code nid m s s' : admitted c now kd k code nid m s s' -> same_queues s s'.
Proof. intros H. inversion H; subst; rewrite ?notify_nf, ?lose_nf; repeat split. Qed.
Lemma prepare_frame c io now reqs : forall n s, same_queues s (handle_prepare_aot c io now n reqs s).
Proof.
  induction reqs as [|[k code] reqs IH]; intros n s; cbn; [apply sq_refl|].
  eapply sq_trans; [eapply admitted_frame, try_admit_cases|apply IH].
Qed.
Lemma resulted_frame c now j o s s' : resulted c now j o s s' -> same_queues s s'.
Proof. intros H. inversion H; subst; repeat split. Qed.
Lemma evict_frame k s : same_queues s (evict k s).
Proof. rewrite evict_nf. repeat split. Qed.
Lemma sweep_frame c now rd order s : same_queues s (sweep c now rd order s).
Proof.
  unfold sweep. destruct (negb _); [apply sq_refl|].
  assert (I : forall l t, same_queues s t -> same_queues s (fold_left (fun s k => evict k s) l t)).
  { induction l as [|k l IH]; intros t H; cbn; [exact H|]. apply IH. eapply sq_trans; [exact H|apply evict_frame]. }
  assert (S1 : same_queues s (sweep_cold c now (sweep_idle c now (set_last_sweep now s)))).
  { destruct (sweep_cold_nf c now (sweep_idle c now (set_last_sweep now s))) as (keep & lst & _ & -> & _).
    assert (S0 : same_queues s (sweep_idle c now (set_last_sweep now s))) by (unfold sweep_idle; destruct (c_idle c); [apply I|]; repeat split).
    eapply sq_trans; [exact S0|]. repeat split. }
  destruct (_ && _); [|exact S1]. revert S1. generalize (sweep_cold c now (sweep_idle c now (set_last_sweep now s))). intros t S1.
  generalize (sort_by_hit (filter (fun p => is_jit t (fst p)) (order (s_meta t)))). intros l. revert S1. generalize 2%nat. revert t.
  induction l as [|[k v] l IH]; intros t n S1; cbn; [exact S1|]. destruct (_ <=? _); [exact S1|]. apply IH. eapply sq_trans; [exact S1|apply evict_frame].
Qed.

(** ** Provenance (C27). *)
Section Prov.
  Variable c : config.
  Variable pre : list (key * program).
  Variable st0 : option (list (akey * func)).

  (** Where the machine code of a program for key [k] may come from. *)
  Definition origin (sup : list (key * list Z)) (k : key) (f : func) : Prop :=
    (exists n code, f = mkFunc code (snd k) (Some n) /\ In (k, code) sup) \/
    (exists st o, st0 = Some st /\ In ((k, o), f) st) \/
    (exists p, In (k, p) pre /\ p_func p = f).

  Record prov_core (sup : list (key * list Z)) (s : state) : Prop := {
    pc_res : forall k p, In (k, p) (s_resident s) -> p_key p = k /\ origin sup k (p_func p);
    pc_store : forall st k o f, s_store s = Some st -> In ((k, o), f) st -> origin sup k f;
    pc_ent : forall k e, In (k, e) (s_entries s) -> In (k, e_code e) sup;
    pc_job : forall j, In j (s_inflight s) -> In (j_key j, j_code j) sup }.
  Record prov (s : state) : Prop := {
    pv_core : prov_core (s_supplied s) s;
    pv_cmds : forall x p, In x (s_cmds s) -> In p (cmd_codes x) -> In p (s_supplied s);
    pv_ev : forall ev, In ev (s_events s) \/ In ev (s_looking s) -> ev_code ev <> [] -> In (ev_key ev, ev_code ev) (s_supplied s) }.

  Lemma origin_mono sup sup' k f : incl sup sup' -> origin sup k f -> origin sup' k f.
  Proof. intros I [(n & code & E & H)|[H|H]]; [left; exists n, code; auto|right; left; exact H|right; right; exact H]. Qed.
  Lemma prov_core_mono sup sup' s : incl sup sup' -> prov_core sup s -> prov_core sup' s.
  Proof.
    intros I [A B C D]. split; auto.
    - intros k p H. destruct (A k p H). split; [assumption|eapply origin_mono; eauto].
    - intros st k o f H1 H2. eapply origin_mono; eauto.
  Qed.

  Lemma prov_core_act sup a s s' : fair_action a ->
    (forall x k code, In x (s_cmds s) -> In (k, code) (cmd_codes x) -> In (k, code) sup) ->
    (forall ev, In ev (s_events s) -> ev_code ev <> [] -> In (ev_key ev, ev_code ev) sup) ->
    act c a s = Some s' -> prov_core sup s -> prov_core sup s'.
  Proof.
    apply (core_act c (prov_core sup) (fun k code _ => In (k, code) sup)). split.
    - intros t t' (E1 & E2 & E3 & E4 & E5 & E6 & E7 & _) [A B C D]. split; rewrite ?E1, ?E3, ?E4, ?E7; assumption.
    - intros now kd k code nid m t t' G GO H HA _ [A B C D].
      assert (O : In (k, e_code (old_entry k code now t)) sup).
      { destruct (old_entry_cases k code now t) as [E|[E ->]]; [apply C; apply (kget_in key_eqb KE); exact E|exact G]. }
      inversion H; subst; rewrite ?notify_nf, ?lose_nf; split; cbn; auto.
      + intros k' p I. apply (kset_in key_eqb KE) in I as [I|[I _]]; [|auto]. injection I as -> ->. cbn. split; [reflexivity|].
        apply (kget_in akey_eqb AE) in H2. eapply B; eauto.
      + intros k' e' I. apply (kset_in key_eqb KE) in I as [I|[I _]]; [|auto]. injection I as -> ->. cbn. apply C. apply (kget_in key_eqb KE). exact H0.
      + intros k' e' I. apply (kset_in key_eqb KE) in I as [I|[I _]]; [|auto]. injection I as -> ->. exact O.
      + intros k' e' I. apply (kset_in key_eqb KE) in I as [I|[I _]]; [|auto]. injection I as -> ->. exact O.
      + intros k' e' I. apply (kset_in key_eqb KE) in I as [I|[I _]]; [|auto]. injection I as -> ->. exact O.
      + intros j I. apply in_app_iff in I as [I|[<-|[]]]; [auto|exact O].
    - intros now n j o t t' N PH H HH _ [A B C D].
      assert (OJ : origin sup (j_key j) (job_func j)) by (left; exists (j_id j), (j_code j); split; [reflexivity|apply D; eapply nth_error_In; eauto]).
      assert (D' : forall x, In x (del_nth n (s_inflight t)) -> In (j_key x, j_code x) sup).
      { intros x I. apply D. apply (Permutation_in x (Permutation_sym (del_nth_perm _ _ _ N))). right. exact I. }
      inversion H; subst; split; cbn; auto;
        try (intros k' e' I; apply (kdel_in key_eqb KE) in I as [I _]; apply C; exact I);
        try (intros k' p' I; apply (kset_in key_eqb KE) in I as [I|[I _]]; [injection I as -> ->; cbn; split; [reflexivity|exact OJ]|auto]);
        (intros st' k' o' f' E I; injection E as <-; apply (kset_in akey_eqb AE) in I as [I|[I _]]; [injection I as -> -> ->; exact OJ|eapply B; eauto]).
    - intros t _ [A B C D]. unfold handle_clear_resident. rewrite notify_all_nf. split; cbn; auto; tauto.
    - intros io t _ [A B C D]. unfold handle_clear_persisted. destruct (s_store t) eqn:ST; [destruct io|]; split; cbn; auto; try (rewrite ?ST; assumption).
      intros st k o f E. injection E as <-. intros [].
    - intros s0 t k _ _ _ _ _ _ _ [A B C D]. rewrite evict_nf. split; cbn; auto; intros k' x I; apply (kdel_in key_eqb KE) in I as [I _]; auto.
    - intros k now t H _ [A B C D]. split; cbn; auto.
    - intros now t _ [A B C D]. destruct (sweep_cold_nf c now t) as (keep & lst & _ & -> & _). split; cbn; auto.
      intros k e I. apply filter_In in I as [I _]. auto.
    - intros t _ [A B C D]. unfold shutdown. rewrite lose_all_nf. split; cbn; auto; tauto.
    - intros n j t N PH _ [A B C D]. split; cbn; auto. intros x I. apply (Permutation_in x (upd_nth_perm _ _ _ _ N)) in I as [<-|I].
      + exact (D j (nth_error_In _ _ N)).
      + apply D. apply (Permutation_in x (Permutation_sym (del_nth_perm _ _ _ N))). right. exact I.
    - intros n j ok t N PH _ [A B C D]. split; cbn; auto. intros x I. apply (Permutation_in x (upd_nth_perm _ _ _ _ N)) in I as [<-|I].
      + exact (D j (nth_error_In _ _ N)).
      + apply D. apply (Permutation_in x (Permutation_sym (del_nth_perm _ _ _ N))). right. exact I.
  Qed.

  Lemma del_nth_in {A} n (l : list A) x : In x (del_nth n l) -> In x l.
  Proof.
    unfold del_nth. intros I. rewrite <- (firstn_skipn n l). apply in_app_iff in I as [I|I]; apply in_app_iff; [auto|right].
    revert I. generalize n. clear n. intros n. rewrite <- (firstn_skipn 1 (skipn n l)). intros I. apply in_app_iff. right.
    revert I. clear. revert l. induction n as [|n IH]; intros l I; [exact I|]. destruct l as [|y l]; [destruct I|]. exact (IH l I).
  Qed.

  Lemma prov_act a s s' : fair_action a -> act c a s = Some s' -> prov s -> prov s'.
  Proof.
    intros F H [PC PM PE].
    assert (X : incl (s_supplied s) (s_supplied s') /\
                (forall x p, In x (s_cmds s') -> In p (cmd_codes x) -> In p (s_supplied s')) /\
                (forall ev, In ev (s_events s') \/ In ev (s_looking s') -> ev_code ev <> [] -> In (ev_key ev, ev_code ev) (s_supplied s'))).
    { destruct a; cbn [act] in H.
      - destruct (lookup_decide c busy k code s); injection H as <-; cbn; try (split; [apply incl_refl|split; [exact PM|exact PE]]).
        + split; [apply incl_refl|split; [exact PM|]]. intros ev [I|[<-|I]]; auto. cbn. congruence.
        + split; [apply incl_tl, incl_refl|]. split; [intros x p I J; right; eauto|]. intros ev [I|[<-|I]] NE; [right; auto|left; reflexivity|right; auto].
      - destruct (nth_error (s_looking s) n) as [ev|] eqn:N; [|discriminate]. injection H as <-. destruct (_ <? _)%nat; cbn.
        + split; [apply incl_refl|split; [exact PM|]]. intros ev' [I|I]; [|apply PE; right; eapply del_nth_in; eauto].
          apply in_app_iff in I as [I|[<-|[]]]; apply PE; [auto|right; eapply nth_error_In; eauto].
        + split; [apply incl_refl|split; [exact PM|]]. intros ev' [I|I]; apply PE; [auto|right; eapply del_nth_in; eauto].
      - injection H as <-. destruct (has k (s_resident s)); cbn; (split; [apply incl_refl|split; [exact PM|exact PE]]).
      - destruct (nid_of x); [discriminate|]. destruct (s_halted s); [injection H as <-; split; [apply incl_refl|split; [exact PM|exact PE]]|].
        destruct (_ <? _)%nat; [|discriminate]. injection H as <-. cbn. split; [apply incl_appr, incl_refl|]. split.
        + intros y p I J. apply in_app_iff. apply in_app_iff in I as [I|[<-|[]]]; [right; eauto|left; exact J].
        + intros ev I NE. apply in_app_iff. right. auto.
      - destruct (s_halted s); [injection H as <-; cbn; split; [apply incl_refl|split; [exact PM|exact PE]]|]. destruct (_ <? _)%nat; [|discriminate].
        injection H as <-. cbn. split; [apply incl_tl, incl_refl|]. split.
        + intros y p I J. apply in_app_iff in I as [I|[<-|[]]]; [right; eauto|]. destruct J as [<-|[]]. left. reflexivity.
        + intros ev I NE. right. auto.
      - injection H as <-. cbn. split; [apply incl_refl|split; [exact PM|exact PE]].
      - destruct (s_halted s); [discriminate|]. destruct (s_cmds s) as [|x q] eqn:EC; [discriminate|]. injection H as <-.
        assert (PM' : forall y p, In y q -> In p (cmd_codes y) -> In p (s_supplied s)) by (intros y p I J; apply (PM y); [right; exact I|exact J]).
        destruct x; cbn [handle].
        + destruct (admitted_frame _ _ _ _ _ _ _ _ _ (try_admit_cases c (o_io o 0%nat) (o_now o) (if c_aot c then Aot else Jit) k code nid Explicit (set_cmds q s))) as (Q1 & Q2 & Q3 & _ & _ & _ & _ & _ & _ & _ & _ & Q12 & _).
          rewrite Q1, Q2, Q3, Q12. cbn. split; [apply incl_refl|split; [exact PM'|exact PE]].
        + destruct (prepare_frame c (o_io o) (o_now o) reqs 0 (set_cmds q s)) as (Q1 & Q2 & Q3 & _ & _ & _ & _ & _ & _ & _ & _ & Q12 & _).
          rewrite Q1, Q2, Q3, Q12. cbn. split; [apply incl_refl|split; [exact PM'|exact PE]].
        + unfold handle_clear_resident. rewrite notify_all_nf. cbn. split; [apply incl_refl|split; [exact PM'|]]. intros ev [[]|I]; auto.
        + unfold handle_clear_persisted. destruct (s_store _); [destruct (o_io o 0%nat)|]; cbn; (split; [apply incl_refl|split; [exact PM'|exact PE]]).
        + unfold handle_clear_persisted, handle_clear_resident. rewrite notify_all_nf.
          destruct (s_store _); [destruct (o_io o 0%nat)|]; cbn; (split; [apply incl_refl|split; [exact PM'|intros ev [[]|I]; auto]]).
        + unfold shutdown. rewrite lose_all_nf. cbn. split; [apply incl_refl|split; [tauto|exact PE]].
      - destruct (s_halted s); [discriminate|]. destruct (s_events s) as [|ev q] eqn:EE; [discriminate|]. injection H as <-.
        assert (PE' : forall ev, In ev q \/ In ev (s_looking s) -> ev_code ev <> [] -> In (ev_key ev, ev_code ev) (s_supplied s)) by (intros e [I|I]; apply PE; [left; right; exact I|right; exact I]).
        unfold handle_lookup_observed. destruct (ev_code ev) eqn:EV.
        + destruct (has _ _); cbn; (split; [apply incl_refl|split; [exact PM|exact PE']]).
        + destruct (admitted_frame _ _ _ _ _ _ _ _ _ (try_admit_cases c (o_io o 0%nat) (o_now o) (if c_aot c then Aot else Jit) (ev_key ev) (z :: l) None Observed (set_misses (S (s_misses (set_g_processed (ev :: s_g_processed (set_events q s)) (set_events q s)))) (set_g_processed (ev :: s_g_processed (set_events q s)) (set_events q s))))) as (Q1 & Q2 & Q3 & _ & _ & _ & _ & _ & _ & _ & _ & Q12 & _).
          rewrite Q1, Q2, Q3, Q12. cbn. split; [apply incl_refl|split; [exact PM|exact PE']].
      - destruct (s_halted s); [discriminate|]. destruct (nth_error (s_inflight s) n) as [j|] eqn:N; [|discriminate]. destruct (j_phase j); try discriminate.
        injection H as <-. destruct (resulted_frame _ _ _ _ _ _ (handle_worker_result_cases c (o_io o) (o_now o) j o0 (set_inflight (del_nth n (s_inflight s)) s))) as (Q1 & Q2 & Q3 & _ & _ & _ & _ & _ & _ & _ & _ & Q12 & _).
        rewrite Q1, Q2, Q3, Q12. cbn. split; [apply incl_refl|split; [exact PM|exact PE]].
      - destruct (s_halted s); [discriminate|]. injection H as <-. destruct (sweep_frame c now rd order s) as (Q1 & Q2 & Q3 & _ & _ & _ & _ & _ & _ & _ & _ & Q12 & _).
        rewrite Q1, Q2, Q3, Q12. split; [apply incl_refl|split; [exact PM|exact PE]].
      - destruct (nth_error (s_inflight s) n) as [j|]; [|discriminate]. destruct (j_phase j); try discriminate. injection H as <-. cbn. split; [apply incl_refl|split; [exact PM|exact PE]].
      - destruct (nth_error (s_inflight s) n) as [j|]; [|discriminate]. destruct (j_phase j); try discriminate. injection H as <-. cbn. split; [apply incl_refl|split; [exact PM|exact PE]]. }
    destruct X as (X1 & X2 & X3). split; [|exact X2|exact X3]. apply (prov_core_mono (s_supplied s)); [exact X1|].
    refine (prov_core_act (s_supplied s) a s s' F _ _ H PC).
    - intros x k code I J. exact (PM x (k, code) I J).
    - intros ev I NE. exact (PE ev (or_introl I) NE).
  Qed.
  Lemma prov_runs l s s' : runs c s l s' -> prov s -> prov s'.
  Proof. induction 1; [auto|]. intros P. apply IHruns. eapply prov_act; eauto. Qed.
  Lemma prov_start now en : (forall k p, In (k, p) pre -> p_key p = k) -> prov (start now pre st0 en).
  Proof.
    intros K. split; cbn; [|tauto|tauto]. split; cbn; try tauto.
    - intros k p I. split; [auto|]. right. right. eauto.
    - intros st k o f E I. right. left. eauto.
  Qed.
End Prov.

(** ** Clearing is a barrier (C28). *)
Notation is_func := visible.

(** Jobs in flight have not produced anything visible yet. *)
Definition unborn (s : state) : Prop :=
  forall f n, is_func s f -> f_job f = Some n -> (n < s_next_job s)%nat /\ ~ In n (map j_id (s_inflight s)).
(** The jobs [D] have been cut off: nothing of theirs is visible and their results would be stale. *)
Definition cut (D : nat -> Prop) (s : state) : Prop :=
  forall n, D n -> (n < s_next_job s)%nat /\ (forall f, is_func s f -> f_job f <> Some n) /\
                   (forall j, In j (s_inflight s) -> j_id j = n -> (j_gen j < s_gen s)%nat).

Lemma is_func_same s s' f : s_resident s' = s_resident s -> s_store s' = s_store s -> is_func s' f <-> is_func s f.
Proof. intros E1 E2. unfold visible. rewrite E1, E2. reflexivity. Qed.
Lemma is_func_set s s' k p f : s_resident s' = set k p (s_resident s) -> s_store s' = s_store s -> is_func s' f -> is_func s f \/ f = p_func p.
Proof.
  intros E1 E2 [(k' & p' & I & E)|H].
  - rewrite E1 in I. apply (kset_in key_eqb KE) in I as [I|[I _]]; [injection I as -> ->; auto|]. left. left. eauto.
  - left. right. rewrite E2 in H. exact H.
Qed.
Lemma is_func_sub s s' f : incl (s_resident s') (s_resident s) -> s_store s' = s_store s -> is_func s' f -> is_func s f.
Proof. intros E1 E2 [(k' & p' & I & E)|H]; [left; exists k', p'; auto|right; rewrite E2 in H; exact H]. Qed.

Lemma admitted_funcs c now kd k code nid m s s' f : admitted c now kd k code nid m s s' -> is_func s' f -> is_func s f.
Proof.
  intros H I. inversion H; subst; rewrite ?notify_nf, ?lose_nf in I; try exact I.
  apply (is_func_set s _ k (mkProg k Aot f0)) in I; [|reflexivity|reflexivity]. destruct I as [I| ->]; [exact I|].
  right. apply (kget_in akey_eqb AE) in H2. cbn. eauto.
Qed.
Lemma admitted_jobs c now kd k code nid m s s' j : admitted c now kd k code nid m s s' -> In j (s_inflight s') ->
  In j (s_inflight s) \/ (j_id j = s_next_job s /\ s_next_job s' = S (s_next_job s) /\ j_gen j = s_gen s /\ j_key j = k).
Proof.
  intros H I. inversion H; subst; rewrite ?notify_nf, ?lose_nf in *; cbn in *; auto.
  apply in_app_iff in I as [I|[<-|[]]]; auto.
Qed.
Lemma admitted_next c now kd k code nid m s s' : admitted c now kd k code nid m s s' -> (s_next_job s <= s_next_job s')%nat /\ s_gen s' = s_gen s.
Proof. intros H. inversion H; subst; rewrite ?notify_nf, ?lose_nf; cbn; lia. Qed.
Lemma resulted_funcs c now j o s s' f : resulted c now j o s s' -> is_func s' f -> is_func s f \/ (f = job_func j /\ j_gen j = s_gen s).
Proof.
  intros H I. inversion H; subst; try (left; exact I).
  - destruct I as [(k & p & I & E)|(st' & a & E & I)]; cbn in *; [left; left; eauto|].
    injection E as <-. apply (kset_in akey_eqb AE) in I as [I|[I _]]; [injection I as -> ->; auto|]. left. right. eauto.
  - destruct I as [(k & p & I & E)|(st' & a & E & I)]; cbn in *.
    + apply (kset_in key_eqb KE) in I as [I|[I _]]; [injection I as -> ->; auto|]. left. left. eauto.
    + injection E as <-. apply (kset_in akey_eqb AE) in I as [I|[I _]]; [injection I as -> ->; auto|]. left. right. eauto.
  - apply (is_func_set (result_base j s) _ (j_key j) (mkProg (j_key j) Jit (job_func j))) in I as [I| ->]; [left; exact I|right; auto|reflexivity|reflexivity].
Qed.
Lemma resulted_rest c now j o s s' : resulted c now j o s s' -> s_inflight s' = s_inflight s /\ s_next_job s' = s_next_job s /\ s_gen s' = s_gen s.
Proof. intros H. inversion H; subst; cbn; auto. Qed.


Lemma unborn_pres c : pres c (fun _ _ _ => True) (fun s => jobs_ok s /\ NoDup (map fst (s_entries s))) unborn.
Proof.
  split.
  - intros t t' (E1 & E2 & E3 & E4 & E5 & E6 & E7 & E8 & E9 & E10 & E11 & E12 & E13 & E14) U f n I. apply (is_func_same t) in I; [|exact E1|exact E4].
    rewrite E7, E13. apply U. exact I.
  - intros now kd k code nid m t t' _ GO H HA [[_ B _ _ _] _] U f n I E. apply (admitted_funcs _ _ _ _ _ _ _ _ _ _ H) in I. destruct (U f n I E) as [U1 U2].
    destruct (admitted_next _ _ _ _ _ _ _ _ _ H) as [N1 _]. split; [lia|]. intros J. apply in_map_iff in J as (j & Ej & J).
    apply (admitted_jobs _ _ _ _ _ _ _ _ _ _ H) in J as [J|(J1 & _)]; [apply U2; apply in_map_iff; eauto|lia].
  - intros now n j o t t' N PH H HH [[A B _ _ _] _] U f n' I E. destruct (resulted_rest _ _ _ _ _ _ H) as (R1 & R2 & R3). rewrite R1, R2. cbn.
    pose proof (del_nth_perm _ _ _ N) as PM. apply (resulted_funcs _ _ _ _ _ _ _ H) in I as [I|[-> _]].
    + destruct (U f n' I E) as [U1 U2]. split; [exact U1|]. intros J. apply U2. apply (in_map_perm j_id _ _ PM). right. exact J.
    + cbn in E. injection E as <-. split; [apply B; eapply nth_error_In; eauto|]. apply (Permutation_map j_id) in PM. apply (Permutation_NoDup PM) in A. cbn in A. inversion A; assumption.
  - intros t _ U f n I E. unfold handle_clear_resident in *. rewrite notify_all_nf in *. cbn. apply (U f n); [|exact E]. apply (is_func_sub t) in I; [exact I|intros x []|reflexivity].
  - intros io t _ U f n I E. unfold handle_clear_persisted in *. destruct (s_store t) as [st|] eqn:ST; [destruct io|]; try (apply (U f n); assumption).
    apply (U f n); [|exact E]. destruct I as [I|(st' & a & E' & I)]; [left; exact I|]. cbn in E'. injection E' as <-. destruct I.
  - intros s0 t k _ _ _ _ _ _ _ U f n I E. rewrite evict_nf in *. cbn. apply (U f n); [|exact E]. apply (is_func_sub t) in I; [exact I| |reflexivity].
    intros x J. cbn in J. apply (kdel_in key_eqb KE) in J as [J _]. exact J.
  - intros k now t _ _ U f n I E. cbn. apply (U f n); assumption.
  - intros now t _ U f n I E. destruct (sweep_cold_nf c now t) as (keep & lst & _ & Q & _). rewrite Q in *. cbn. apply (U f n); assumption.
  - intros t _ U f n I E. unfold shutdown in *. rewrite lose_all_nf in *. cbn. split; [|tauto]. apply (U f n); assumption.
  - intros n j t N PH _ U f n' I E. cbn. rewrite (upd_nth_map j_id _ _ j); auto. apply (U f n'); assumption.
  - intros n j ok t N PH _ U f n' I E. cbn. rewrite (upd_nth_map j_id _ _ j); auto. apply (U f n'); assumption.
Qed.

Lemma cut_pres c D : pres c (fun _ _ _ => True) (fun _ => True) (cut D).
Proof.
  split.
  - intros t t' (E1 & E2 & E3 & E4 & E5 & E6 & E7 & E8 & E9 & E10 & E11 & E12 & E13 & E14) U n Dn. destruct (U n Dn) as (U1 & U2 & U3).
    rewrite E7, E13, E6. split; [exact U1|]. split; [|exact U3]. intros f I. apply (is_func_same t) in I; auto.
  - intros now kd k code nid m t t' _ GO H HA _ U n Dn. destruct (U n Dn) as (U1 & U2 & U3). destruct (admitted_next _ _ _ _ _ _ _ _ _ H) as [N1 N2].
    split; [lia|]. split; [intros f I; apply U2; eapply admitted_funcs; eauto|]. intros j J E. rewrite N2.
    apply (admitted_jobs _ _ _ _ _ _ _ _ _ _ H) in J as [J|(J1 & _)]; [auto|lia].
  - intros now n j o t t' N PH H HH _ U n' Dn. destruct (U n' Dn) as (U1 & U2 & U3). destruct (resulted_rest _ _ _ _ _ _ H) as (R1 & R2 & R3). rewrite R1, R2, R3. cbn.
    split; [exact U1|]. split.
    + intros f I. apply (resulted_funcs _ _ _ _ _ _ _ H) in I as [I|[-> G]]; [exact (U2 f I)|]. cbn in *. intros E. injection E as E.
      specialize (U3 j (nth_error_In _ _ N) E). lia.
    + intros j' J. apply U3. eapply del_nth_in; eauto.
  - intros t _ U n Dn. destruct (U n Dn) as (U1 & U2 & U3). unfold handle_clear_resident. rewrite notify_all_nf. cbn.
    split; [exact U1|]. split; [|intros j J E; specialize (U3 j J E); lia]. intros f I. apply U2. apply (is_func_sub t) in I; [exact I|intros x []|reflexivity].
  - intros io t _ U n Dn. destruct (U n Dn) as (U1 & U2 & U3). unfold handle_clear_persisted. destruct (s_store t) as [st|] eqn:ST; [destruct io|]; try exact (U n Dn).
    split; [exact U1|]. split; [|exact U3]. intros f I. apply U2. destruct I as [I|(st' & a & E' & I)]; [left; exact I|]. cbn in E'. injection E' as <-. destruct I.
  - intros s0 t k _ _ _ _ _ _ _ U n Dn. destruct (U n Dn) as (U1 & U2 & U3). rewrite evict_nf. split; [exact U1|]. split; [|exact U3].
    intros f I. apply U2. apply (is_func_sub t) in I; [exact I| |reflexivity]. intros x J. cbn in J. apply (kdel_in key_eqb KE) in J as [J _]. exact J.
  - intros k now t _ _ U. exact U.
  - intros now t _ U. destruct (sweep_cold_nf c now t) as (keep & lst & _ & Q & _). rewrite Q. exact U.
  - intros t _ U n Dn. destruct (U n Dn) as (U1 & U2 & U3). unfold shutdown. rewrite lose_all_nf. cbn. split; [exact U1|]. split; [exact U2|tauto].
  - intros n j t N PH _ U n' Dn. destruct (U n' Dn) as (U1 & U2 & U3). split; [exact U1|]. split; [exact U2|]. cbn. intros j' J E.
    apply (Permutation_in _ (upd_nth_perm _ _ _ _ N)) in J as [<-|J]; [exact (U3 j (nth_error_In _ _ N) E)|]. apply U3; [eapply del_nth_in; eauto|exact E].
  - intros n j ok t N PH _ U n' Dn. destruct (U n' Dn) as (U1 & U2 & U3). split; [exact U1|]. split; [exact U2|]. cbn. intros j' J E.
    apply (Permutation_in _ (upd_nth_perm _ _ _ _ N)) in J as [<-|J]; [exact (U3 j (nth_error_In _ _ N) E)|]. apply U3; [eapply del_nth_in; eauto|exact E].
Qed.

(** ** Unique jobs (C29) and the pending statistic (C32), until the first clear. *)
(** Without a store nothing is resident and tracked at the same time. *)
Definition disjoint (s : state) : Prop := s_store s = None -> forall k, has k (s_resident s) = true -> get k (s_entries s) = None.
Lemma disjoint_pres c : pres c (fun _ _ _ => True) (fun _ => True) disjoint.
Proof.
  split.
  - intros t t' (E1 & E2 & E3 & E4 & _) U. unfold disjoint. rewrite E1, E3, E4. exact U.
  - intros now kd k code nid m t t' _ GO H HA _ U. inversion H; subst; rewrite ?notify_nf, ?lose_nf; intros ST k' HR; cbn in *;
      try (apply (U ST k' HR)); try congruence;
      rewrite (kget_set key_eqb KE); destruct (key_eqb k' k) eqn:EK; try (apply (U ST k' HR)); apply KE in EK; congruence.
  - intros now n j o t t' N PH H HH _ U. inversion H; subst; intros ST k' HR; cbn in *; rewrite (kget_del key_eqb KE); destruct (key_eqb k' (j_key j)) eqn:EK; try reflexivity;
      try (apply (U ST k' HR)); try congruence. apply (U ST k'). rewrite has_set, EK in HR. exact HR.
  - intros t _ U. unfold handle_clear_resident. rewrite notify_all_nf. intros ST k HR. cbn. reflexivity.
  - intros io t _ U. unfold handle_clear_persisted. destruct (s_store t); [destruct io|]; try exact U. intros ST; discriminate.
  - intros s0 t k _ _ _ _ _ _ _ U. rewrite evict_nf. intros ST k' HR. cbn in *. rewrite has_del in HR. rewrite (kget_del key_eqb KE).
    destruct (key_eqb k' k); [reflexivity|]. apply (U ST). exact HR.
  - intros k now t _ _ U. exact U.
  - intros now t _ U. destruct (sweep_cold_nf c now t) as (keep & lst & _ & Q & _). rewrite Q. intros ST k HR. cbn in *.
    specialize (U ST k HR). apply (kget_none key_eqb KE). apply (kget_none key_eqb KE) in U. intros I. apply U. apply in_map_iff in I as (x & E & I). apply filter_In in I as [I _]. apply in_map_iff. eauto.
  - intros t _ U. unfold shutdown. rewrite lose_all_nf. intros ST k HR. reflexivity.
  - intros n j t N PH _ U. exact U.
  - intros n j ok t N PH _ U. exact U.
Qed.

(** What rules out that an entry is evicted while its job runs. *)
Definition evict_safe (c : config) (s : state) : Prop := s_store s = None \/ (c_idle c = None /\ c_budget c <= 0).

Definition base (c : config) (s : state) : Prop :=
  ((maps_ok s /\ disjoint s) /\ (jobs_ok s /\ NoDup (map fst (s_entries s)))).
Lemma pres_weaken c Good K P : pres c Good (fun _ => True) P -> pres c Good K P.
Proof. intros H. destruct H. split; eauto. Qed.
Lemma base_pres c : pres c (fun _ _ _ => True) (fun _ => True) (base c).
Proof.
  apply pres_and; [apply pres_and; [apply maps_pres|apply pres_weaken, disjoint_pres]|apply pres_weaken, jobs_pres].
Qed.

Definition unique (c : config) (s : state) : Prop :=
  evict_safe c s -> s_gen s = 0%nat -> NoDup (map j_key (s_inflight s)) /\
    (forall j, In j (s_inflight s) -> exists e, get (j_key j) (s_entries s) = Some e /\ e_phase e = Working).

Lemma unique_pres c : pres c (fun _ _ _ => True) (base c) (unique c).
Proof.
  split.
  - intros t t' (E1 & E2 & E3 & E4 & E5 & E6 & E7 & _) U. unfold unique, evict_safe. rewrite E3, E4, E6, E7. exact U.
  - intros now kd k code nid m t t' _ GO H HA _ U S G.
    assert (S0 : evict_safe c t /\ s_gen t = 0%nat).
    { split; [|destruct (admitted_next _ _ _ _ _ _ _ _ _ H); congruence]. destruct S as [S|S]; [left|right; exact S].
      inversion H; subst; rewrite ?notify_nf, ?lose_nf in S; exact S. }
    destruct S0 as [S0 G0]. destruct (U S0 G0) as [U1 U2].
    inversion H; subst; rewrite ?notify_nf, ?lose_nf; cbn; auto; try (split; [exact U1|]; intros j J; destruct (U2 j J) as (e' & W1 & W2)).
    + rewrite (kget_set key_eqb KE). destruct (key_eqb (j_key j) k) eqn:EK; [|eauto]. eexists. split; [reflexivity|]. reflexivity.
    + rewrite (kget_set key_eqb KE). destruct (key_eqb (j_key j) k) eqn:EK; [|eauto]. apply KE in EK. subst. exfalso. unfold old_entry in H1. rewrite W1 in H1. congruence.
    + rewrite (kget_set key_eqb KE). destruct (key_eqb (j_key j) k) eqn:EK; [|eauto]. apply KE in EK. subst. exfalso. unfold old_entry in H1. rewrite W1 in H1. congruence.
    + rewrite map_app. cbn. split.
      * apply Permutation_NoDup with (l := k :: map j_key (s_inflight t)); [apply Permutation_cons_append|]. constructor; [|exact U1].
        intros I. apply in_map_iff in I as (j & <- & J). destruct (U2 j J) as (e' & W1 & W2). unfold old_entry in H1. rewrite W1 in H1. congruence.
      * intros j J. rewrite (kget_set key_eqb KE). destruct (key_eqb (j_key j) k) eqn:EK; [eexists; split; reflexivity|].
        apply in_app_iff in J as [J|[<-|[]]]; [auto|]. cbn in EK. rewrite (eqb_refl key_eqb KE) in EK. discriminate.
  - intros now n j o t t' N PH H HH [_ [[_ JL _ _ _] _]] U S G.
    assert (S0 : evict_safe c t /\ s_gen t = 0%nat).
    { destruct (resulted_rest _ _ _ _ _ _ H) as (_ & _ & R3). split; [|cbn in R3; congruence]. destruct S as [S|S]; [left|right; exact S].
      inversion H; subst; cbn in S; try exact S; discriminate. }
    destruct S0 as [S0 G0]. destruct (U S0 G0) as [U1 U2]. pose proof (del_nth_perm _ _ _ N) as PM.
    pose proof (Permutation_NoDup (Permutation_map j_key PM) U1) as U1'. cbn in U1'. inversion U1' as [|x l X1 X2]; subst.
    assert (X : NoDup (map j_key (del_nth n (s_inflight t))) /\ (forall j', In j' (del_nth n (s_inflight t)) -> exists e, get (j_key j') (del (j_key j) (s_entries t)) = Some e /\ e_phase e = Working)).
    { split; [exact X2|]. intros j' J. rewrite (kget_del key_eqb KE). destruct (key_eqb (j_key j') (j_key j)) eqn:EK.
      - exfalso. apply KE in EK. apply X1. rewrite <- EK. apply in_map. exact J.
      - apply U2. eapply del_nth_in; eauto. }
    inversion H; subst; exact X.
  - intros t _ U. unfold handle_clear_resident. rewrite notify_all_nf. intros S G. cbn in G. discriminate.
  - intros io t _ U. unfold handle_clear_persisted. destruct (s_store t) eqn:ST; [destruct io|]; try exact U. intros [S|S] G; [discriminate|]. apply U; [right; exact S|exact G].
  - intros s0 t k HM EN [[M0 D0] _] _ HE HS [[M D] _] U. rewrite evict_nf. intros S G. cbn in *.
    destruct S as [S|[S1 S2]]; [|destruct EN as [EN|EN]; [congruence|lia]]. cbn in S.
    assert (X : forall e, get k (s_entries t) = Some e -> False).
    { intros e He. destruct (HE e He) as [e' He']. assert (ST0 : s_store s0 = None) by congruence.
      rewrite <- (mo_keys _ M0) in HM. rewrite (D0 ST0 k HM) in He'. discriminate. }
    destruct (get k (s_entries t)) as [e|] eqn:GE; [destruct (X e eq_refl)|].
    rewrite (kdel_none key_eqb k _ GE). apply U; [left; exact S|exact G].
  - intros k now t _ _ U. exact U.
  - intros now t [_ [_ ND]] U. destruct (sweep_cold_nf c now t) as (keep & lst & K & Q & _). rewrite Q. intros S G. cbn in *. destruct (U S G) as [U1 U2].
    split; [exact U1|]. intros j J. destruct (U2 j J) as (e & W1 & W2). exists e. split; [|exact W2].
    apply (in_kget key_eqb KE); [apply filter_keys_nodup; exact ND|]. apply filter_In. apply (kget_in key_eqb KE) in W1. split; [exact W1|].
    destruct (keep (j_key j, e)) eqn:KP; [reflexivity|]. destruct (K _ W1 KP) as [K1 _]. cbn in K1. congruence.
  - intros t _ U. unfold shutdown. rewrite lose_all_nf. intros S G. cbn. split; [constructor|tauto].
  - intros n j t N PH _ U S G. destruct (U S G) as [U1 U2]. cbn. rewrite (upd_nth_map j_key _ _ j); auto. split; [exact U1|].
    intros j' J. apply (Permutation_in _ (upd_nth_perm _ _ _ _ N)) in J as [<-|J]; [exact (U2 j (nth_error_In _ _ N))|]. apply U2. eapply del_nth_in; eauto.
  - intros n j ok t N PH _ U S G. destruct (U S G) as [U1 U2]. cbn. rewrite (upd_nth_map j_key _ _ j); auto. split; [exact U1|].
    intros j' J. apply (Permutation_in _ (upd_nth_perm _ _ _ _ N)) in J as [<-|J]; [exact (U2 j (nth_error_In _ _ N))|]. apply U2. eapply del_nth_in; eauto.
Qed.

(** The statistic never falls below the jobs in flight, and is exact before the first clear. *)
Definition stat_ok (s : state) : Prop := s_halted s = false ->
  (s_succeeded s + s_failed s + length (s_inflight s) <= s_dispatched s)%nat /\
  (s_gen s = 0%nat -> s_dispatched s = s_succeeded s + s_failed s + length (s_inflight s))%nat.
Lemma stat_pres c : pres c (fun _ _ _ => True) (base c) stat_ok.
Proof.
  split.
  - intros t t' (E1 & E2 & E3 & E4 & E5 & E6 & E7 & E8 & E9 & E10 & E11 & E12 & E13 & E14) U. unfold stat_ok. rewrite E6, E7, E9, E10, E11, E12. exact U.
  - intros now kd k code nid m t t' _ GO H HA _ U HH.
    inversion H; subst; rewrite ?notify_nf, ?lose_nf in *; cbn in *; try exact (U HH). rewrite app_length. cbn. specialize (U HH). split; [lia|]. intros G. destruct U as [_ U]. specialize (U G). lia.
  - intros now n j o t t' N PH H HH [_ [[_ JL _ _ _] _]] U HH'. specialize (U HH). pose proof (Permutation_length (del_nth_perm _ _ _ N)) as L. cbn in L.
    destruct (JL j (nth_error_In _ _ N)) as [_ J2]. inversion H; subst; cbn in *; (split; [lia|]); intros G; destruct U as [_ U]; specialize (U G); lia.
  - intros t _ U. unfold handle_clear_resident. rewrite notify_all_nf. intros HH. cbn in *. specialize (U HH). split; [lia|discriminate].
  - intros io t _ U. unfold handle_clear_persisted. destruct (s_store t); [destruct io|]; exact U.
  - intros s0 t k _ _ _ _ _ _ _ U. rewrite evict_nf. exact U.
  - intros k now t _ _ U. exact U.
  - intros now t _ U. destruct (sweep_cold_nf c now t) as (keep & lst & _ & -> & _). exact U.
  - intros t _ U. unfold shutdown. rewrite lose_all_nf. intros HH. discriminate.
  - intros n j t N PH _ U HH. cbn in *. rewrite (Permutation_length (upd_nth_perm _ _ _ _ N)). cbn. pose proof (Permutation_length (del_nth_perm _ _ _ N)) as L. cbn in L. rewrite <- L. exact (U HH).
  - intros n j ok t N PH _ U HH. cbn in *. rewrite (Permutation_length (upd_nth_perm _ _ _ _ N)). cbn. pose proof (Permutation_length (del_nth_perm _ _ _ N)) as L. cbn in L. rewrite <- L. exact (U HH).
Qed.

(** While nothing can be evicted under a running job, no notifier is dropped. *)
Definition no_loss (c : config) (s : state) : Prop := s_halted s = false -> evict_safe c s -> s_lost s = [].
Lemma no_loss_pres c : pres c (fun _ _ _ => True) (base c) (no_loss c).
Proof.
  split.
  - intros t t' (E1 & E2 & E3 & E4 & E5 & E6 & E7 & E8 & E9 & E10 & E11 & E12 & E13 & E14) U. unfold no_loss, evict_safe. rewrite E4, E9. intros HH. rewrite E14 by exact HH. exact (U HH).
  - intros now kd k code nid m t t' _ GO H HA _ U HH S.
    assert (S0 : evict_safe c t). { destruct S as [S|S]; [left|right; exact S]. inversion H; subst; rewrite ?notify_nf, ?lose_nf in S; exact S. }
    inversion H; subst; try (rewrite (GO eq_refl) in * ); rewrite ?notify_nf, ?lose_nf in *; cbn in *; exact (U HH S0).
  - intros now n j o t t' N PH H HH [_ [[_ JL _ _ _] _]] U HH' S.
    assert (S0 : evict_safe c t). { destruct S as [S|S]; [left|right; exact S]. inversion H; subst; cbn in S; try exact S; discriminate. }
    inversion H; subst; cbn in *; exact (U HH S0).
  - intros t _ U. unfold handle_clear_resident. rewrite notify_all_nf. exact U.
  - intros io t _ U. unfold handle_clear_persisted. destruct (s_store t) eqn:ST; [destruct io|]; try exact U. intros HH [S|S]; [discriminate|]. apply U; [exact HH|right; exact S].
  - intros s0 t k HM EN [[M0 D0] _] _ HE HS [[M D] _] U. rewrite evict_nf. intros HH S. cbn in *.
    destruct S as [S|[S1 S2]]; [|destruct EN as [EN|EN]; [congruence|lia]]. cbn in S.
    assert (X : forall e, get k (s_entries t) = Some e -> False).
    { intros e He. destruct (HE e He) as [e' He']. assert (ST0 : s_store s0 = None) by congruence.
      rewrite <- (mo_keys _ M0) in HM. rewrite (D0 ST0 k HM) in He'. discriminate. }
    unfold pend_of. destruct (get k (s_entries t)) as [e|] eqn:GE; [destruct (X e eq_refl)|]. cbn. apply U; [exact HH|left; exact S].
  - intros k now t _ _ U. exact U.
  - intros now t [[M _] [[_ _ JC _ _] _]] U. destruct (sweep_cold_nf c now t) as (keep & lst & K & Q & L). rewrite Q. intros HH S. cbn in *. rewrite L.
    assert (X : flat_map (fun p : key * entry => e_pend (snd p)) (filter (fun p => negb (keep p)) (s_entries t)) = []).
    { assert (Y : forall p, In p (filter (fun p => negb (keep p)) (s_entries t)) -> e_pend (snd p) = []).
      { intros [k e] I. apply filter_In in I as [I N]. apply negb_true_iff in N. destruct (K _ I N) as [K1 _]. apply (JC k e); [|exact K1].
        apply (in_kget key_eqb KE); [apply M|exact I]. }
      revert Y. generalize (filter (fun p => negb (keep p)) (s_entries t)). induction l as [|p l IH]; intros Y; cbn; [reflexivity|].
      rewrite (Y p) by (left; reflexivity). apply IH. intros q I. apply Y. right. exact I. }
    rewrite X. cbn. exact (U HH S).
  - intros t _ U. unfold shutdown. rewrite lose_all_nf. intros HH. discriminate.
  - intros n j t N PH _ U. exact U.
  - intros n j ok t N PH _ U. exact U.
Qed.
