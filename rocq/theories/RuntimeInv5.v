(** Bound on tracked keys (C31), hotness (C33), eviction (C34), lookup accounting (C36). *)
From Verif Require Import RuntimeModel RuntimeSpec RuntimeProof RuntimeInv RuntimeInv2 RuntimeInv3 RuntimeInv4.
From Coq Require Import Sorted.
Open Scope Z_scope.

(** ** Tracked keys. *)
Definition queued_codes (l : list cmd) : nat := list_sum (map (fun x => length (cmd_codes x)) l).
Lemma set_len k e es : (length (set k e es : list (key * entry)) <= S (length es))%nat.
Proof. unfold kset, kdel. cbn. induction es as [|x es IH]; cbn; [lia|]. destruct (negb _); cbn in *; lia. Qed.
Lemma filter_len {A} (f : A -> bool) l : (length (filter f l) <= length l)%nat.
Proof. induction l as [|x l IH]; cbn; [lia|]. destruct (f x); cbn; lia. Qed.
Lemma del_len k es : (length (del k es : list (key * entry)) <= length es)%nat.
Proof. apply filter_len. Qed.
Lemma entries_admitted c now kd k code nid m s s' : admitted c now kd k code nid m s s' -> NoDup (map fst (s_entries s)) ->
  (length (s_entries s') <= match m with Explicit => S (length (s_entries s)) | Observed => Nat.max (length (s_entries s)) (c_maxpending c * 10) end)%nat.
Proof.
  intros H N. assert (X : forall e, (length (set k e (s_entries s)) <= S (length (s_entries s)) /\ (has k (s_entries s) = true -> length (set k e (s_entries s)) = length (s_entries s)))%nat).
  { intros e. split; [apply set_len|]. intros HK. apply has_get in HK as [e' G]. eapply kset_len_some; eauto using KE. }
  inversion H; subst; rewrite ?notify_nf, ?lose_nf; cbn; try lia; try (destruct m; lia).
  - match goal with |- context [set k ?e0 _] => destruct (X e0) as [X1 X2] end. assert (HK : has k (s_entries s) = true) by (unfold has; rewrite H0; reflexivity). specialize (X2 HK). destruct m; lia.
  - match goal with |- context [set k ?e0 _] => destruct (X e0) as [X1 X2] end. destruct (has k (s_entries s)) eqn:HK; [specialize (X2 eq_refl); lia|]. apply has_false in HK. specialize (H6 HK). lia.
  - match goal with |- context [set k ?e0 _] => destruct (X e0) as [X1 X2] end. destruct m; [|lia]. destruct (has k (s_entries s)) eqn:HK; [specialize (X2 eq_refl); lia|]. apply has_false in HK. specialize (H5 eq_refl HK). lia.
  - match goal with |- context [set k ?e0 _] => destruct (X e0) as [X1 X2] end. destruct m; [|lia]. destruct (has k (s_entries s)) eqn:HK; [specialize (X2 eq_refl); lia|]. apply has_false in HK. specialize (H7 eq_refl HK). lia.
Qed.
Lemma entries_prepare c io now reqs : forall i s, NoDup (map fst (s_entries s)) -> (length (s_entries (handle_prepare_aot c io now i reqs s)) <= length reqs + length (s_entries s))%nat.
Proof.
  induction reqs as [|[k code] reqs IH]; intros i s N; cbn [handle_prepare_aot length]; [lia|].
  pose proof (try_admit_cases c (io i) now Aot k code None Explicit s) as H. pose proof (entries_admitted _ _ _ _ _ _ _ _ _ H N) as L. cbn in L.
  specialize (IH (S i) _ (nodup_admitted _ _ _ _ _ _ _ _ _ H N)). lia.
Qed.
Lemma entries_sweep c now rd order s : (length (s_entries (sweep c now rd order s)) <= length (s_entries s))%nat.
Proof.
  assert (E : forall k t, (length (s_entries (evict k t)) <= length (s_entries t))%nat) by (intros k t; rewrite evict_nf; cbn; apply del_len).
  unfold sweep. destruct (negb _); [lia|].
  assert (I : forall l t, (length (s_entries (fold_left (fun s k => evict k s) l t)) <= length (s_entries t))%nat).
  { induction l as [|k l IH]; intros t; cbn; [lia|]. specialize (IH (evict k t)). specialize (E k t). lia. }
  assert (S1 : (length (s_entries (sweep_cold c now (sweep_idle c now (set_last_sweep now s)))) <= length (s_entries s))%nat).
  { destruct (sweep_cold_nf c now (sweep_idle c now (set_last_sweep now s))) as (keep & lst & _ & -> & _). cbn.
    pose proof (filter_len keep (s_entries (sweep_idle c now (set_last_sweep now s)))) as F. unfold sweep_idle in *.
    destruct (c_idle c) as [z|]; [|cbn in *; lia]. pose proof (I (map fst (filter (fun p => now - snd p >? z) (s_meta (set_last_sweep now s)))) (set_last_sweep now s)) as I'. change (s_entries (set_last_sweep now s)) with (s_entries s) in I'. lia. }
  destruct (_ && _); [|exact S1]. revert S1. generalize (sweep_cold c now (sweep_idle c now (set_last_sweep now s))). intros t.
  generalize (sort_by_hit (filter (fun p => is_jit t (fst p)) (order (s_meta t)))). intros l. generalize 2%nat. revert t.
  induction l as [|[k v] l IH]; intros t n S1; cbn; [exact S1|]. destruct (_ <=? _); [exact S1|]. apply IH. specialize (E k t). lia.
Qed.
Definition room (c : config) (v : nat) (s : state) : Prop :=
  (queued_codes (s_cmds s) <= v /\ length (s_entries s) + queued_codes (s_cmds s) <= c_maxpending c * 10 + v)%nat.
Lemma queued_codes_app a b : queued_codes (a ++ b) = (queued_codes a + queued_codes b)%nat.
Proof. unfold queued_codes. rewrite map_app. apply list_sum_app. Qed.
Lemma queued_codes_cons x a : queued_codes (x :: a) = (length (cmd_codes x) + queued_codes a)%nat.
Proof. reflexivity. Qed.

Lemma room_act c a s s' v : act c a s = Some s' -> NoDup (map fst (s_entries s)) -> room c v s -> room c (v + explicit_requests a) s'.
Proof.
  intros H N [R1 R2]. unfold room. destruct a; cbn [act explicit_requests] in *; rewrite ?Nat.add_0_r.
  - destruct (lookup_decide c busy k code s); injection H as <-; auto.
  - destruct (nth_error (s_looking s) n); [|discriminate]. injection H as <-. destruct (length (s_events s) <? c_cap c)%nat; auto.
  - injection H as <-. destruct (has k (s_resident s)); auto.
  - destruct (nid_of x) eqn:NX; [discriminate|]. destruct (s_halted s); [injection H as <-; lia|]. destruct (length (s_cmds s) <? c_cap c)%nat; [|discriminate]. injection H as <-.
    cbn [s_cmds s_entries set_cmds set_supplied]. rewrite queued_codes_app, queued_codes_cons. unfold queued_codes at 2 4. cbn [map list_sum fold_right]. change (list_sum []) with 0%nat. lia.
  - destruct (s_halted s); [injection H as <-; cbn [s_cmds s_entries set_lost set_next_sync set_requests]; lia|]. destruct (length (s_cmds s) <? c_cap c)%nat; [|discriminate]. injection H as <-.
    cbn [s_cmds s_entries set_cmds set_supplied set_next_sync set_requests]. rewrite queued_codes_app, queued_codes_cons. unfold queued_codes at 2 4. cbn. lia.
  - injection H as <-. auto.
  - destruct (s_halted s); [discriminate|]. destruct (s_cmds s) as [|x q] eqn:Q; [discriminate|]. injection H as <-. rewrite queued_codes_cons in *. destruct x; cbn [handle cmd_codes length] in *.
    + pose proof (try_admit_cases c (o_io o 0%nat) (o_now o) (if c_aot c then Aot else Jit) k code nid Explicit (set_cmds q s)) as H.
      pose proof (entries_admitted _ _ _ _ _ _ _ _ _ H N) as L. destruct (admitted_frame _ _ _ _ _ _ _ _ _ H) as (F1 & _). rewrite F1. cbn [s_cmds s_entries set_cmds] in *. lia.
    + destruct (prepare_frame c (o_io o) (o_now o) reqs 0 (set_cmds q s)) as (F1 & _). rewrite F1. pose proof (entries_prepare c (o_io o) (o_now o) reqs 0 (set_cmds q s) N) as L. cbn [s_cmds s_entries set_cmds] in *. lia.
    + unfold handle_clear_resident. rewrite notify_all_nf. cbn [s_cmds s_entries set_notified set_gen set_g_discarded set_events set_entries set_meta set_resident set_cmds length]. lia.
    + unfold handle_clear_persisted. destruct (s_store _); [destruct (o_io o 0%nat)|]; cbn [s_cmds s_entries set_cmds set_store]; lia.
    + assert (W2 : s_cmds (handle_clear_resident (set_cmds q s)) = q /\ s_entries (handle_clear_resident (set_cmds q s)) = []) by (unfold handle_clear_resident; rewrite notify_all_nf; auto).
      destruct W2 as [W2 W3]. unfold handle_clear_persisted. destruct (s_store _); [destruct (o_io o 0%nat)|]; cbn [s_cmds s_entries set_store]; rewrite W2, W3; cbn [length]; lia.
    + unfold shutdown. rewrite lose_all_nf. cbn. lia.
  - destruct (s_halted s); [discriminate|]. destruct (s_events s) as [|ev q] eqn:Q; [discriminate|]. injection H as <-. unfold handle_lookup_observed. destruct (ev_code ev).
    + destruct (has (ev_key ev) _); auto.
    + match goal with |- context [try_admit ?a1 ?a2 ?a3 ?a4 ?a5 ?a6 ?a7 ?a8 ?t0] => pose proof (try_admit_cases a1 a2 a3 a4 a5 a6 a7 a8 t0) as H; pose proof (entries_admitted a1 a3 a4 a5 a6 a7 a8 t0 _ H N) as L end.
      destruct (admitted_frame _ _ _ _ _ _ _ _ _ H) as (F1 & _). rewrite F1. cbn [s_cmds s_entries set_misses set_g_processed set_events] in *. lia.
  - destruct (s_halted s); [discriminate|]. destruct (nth_error (s_inflight s) n) as [j|] eqn:NE; [|discriminate]. destruct (j_phase j) eqn:PH; try discriminate. injection H as <-.
    match goal with |- context [handle_worker_result ?a1 ?a2 ?a3 ?a4 ?a5 ?t0] => pose proof (handle_worker_result_cases a1 a2 a3 a4 a5 t0) as H; remember (handle_worker_result a1 a2 a3 a4 a5 t0) as s' eqn:ES; clear ES end.
    destruct (resulted_frame _ _ _ _ _ _ H) as (F1 & _). rewrite F1. pose proof (del_len (j_key j) (s_entries s)) as D.
    assert (X : s_entries s' = del (j_key j) (s_entries s)) by (inversion H; subst; reflexivity). rewrite X. cbn [s_cmds set_inflight]. lia.
  - destruct (s_halted s); [discriminate|]. injection H as <-. destruct (sweep_frame c now rd order s) as (F1 & _). rewrite F1. pose proof (entries_sweep c now rd order s). lia.
  - destruct (nth_error (s_inflight s) n) as [j|]; [|discriminate]. destruct (j_phase j); try discriminate. injection H as <-. auto.
  - destruct (nth_error (s_inflight s) n) as [j|]; [|discriminate]. destruct (j_phase j); try discriminate. injection H as <-. auto.
Qed.
Lemma room_inv c l s s' : runs c s l s' -> forall v, jobs_ok s /\ NoDup (map fst (s_entries s)) -> room c v s -> room c (v + list_sum (map explicit_requests l)) s'.
Proof.
  induction 1 as [|s a s1 l s2 F H R IH]; intros v J C; cbn [map]; [rewrite Nat.add_0_r; exact C|]. rewrite list_sum_cons, Nat.add_assoc. apply IH.
  - eapply jobs_act; eauto.
  - eapply room_act; eauto. apply J.
Qed.

(** ** Hotness. *)
Definition hot_of (k : key) (s : state) : Z := match get k (s_entries s) with Some e => e_hot e | None => 0 end.
Definition nonneg (s : state) : Prop := forall k, 0 <= hot_of k s.
Lemma jobs_nonneg s : jobs_ok s -> nonneg s.
Proof. intros J k. unfold hot_of. destruct (get k (s_entries s)) eqn:G; [exact (jo_hot _ J _ _ G)|lia]. Qed.
Lemma hot_set k k' e es : (match get k (set k' e es) with Some e => e_hot e | None => 0 end) = if key_eqb k k' then e_hot e else match get k es with Some e => e_hot e | None => 0 end.
Proof. rewrite (kget_set key_eqb KE). destruct (key_eqb k k'); reflexivity. Qed.
Lemma hot_old k code now s : e_hot (old_entry k code now s) = hot_of k s.
Proof. unfold old_entry, hot_of. destruct (get k (s_entries s)); reflexivity. Qed.
Lemma hot_admitted c now kd k0 code nid m s s' k : admitted c now kd k0 code nid m s s' -> nonneg s ->
  0 <= hot_of k s' <= hot_of k s + (match m with Observed => if key_eqb k k0 then 1 else 0 | Explicit => 0 end).
Proof.
  intros H N. pose proof (N k) as Nk. assert (E : key_eqb k k0 = true -> k0 = k) by (intros X; apply KE in X; auto).
  assert (Hj : forall e, get k0 (s_entries s) = Some e -> e_hot e = hot_of k0 s) by (intros e G; unfold hot_of; rewrite G; reflexivity).
  inversion H; subst; rewrite ?notify_nf, ?lose_nf; unfold hot_of at 2;
    cbn [s_entries set_notified set_lost set_entries insert_resident set_meta set_resident]; fold (hot_of k s);
    unfold hot_of at 1; cbn [s_entries set_notified set_lost set_entries insert_resident set_meta set_resident]; fold (hot_of k s);
    try (destruct m; destruct (key_eqb k k0); lia); try (destruct (key_eqb k k0); lia); rewrite ?hot_set; cbn [e_hot]; rewrite ?hot_old; try rewrite (Hj _ H0); fold (hot_of k s);
    destruct (key_eqb k k0) eqn:EK; try (rewrite (E eq_refl) in * ); try match goal with m : mode |- _ => destruct m end; lia.
Qed.
Lemma hot_sub k s s' : nonneg s -> (get k (s_entries s') = get k (s_entries s) \/ get k (s_entries s') = None) -> 0 <= hot_of k s' <= hot_of k s.
Proof. intros N [H|H]; specialize (N k); unfold hot_of in *; rewrite H in *; lia. Qed.
Lemma filter_get_cases {V} (keep : key * V -> bool) k (l : list (key * V)) : NoDup (map fst l) -> get k (filter keep l) = get k l \/ get k (filter keep l) = None.
Proof.
  intros N. destruct (get k (filter keep l)) eqn:G; [|auto]. left. symmetry. eapply filter_get; eauto.
Qed.
Lemma sweep_entries c now rd order s k : NoDup (map fst (s_entries s)) -> get k (s_entries (sweep c now rd order s)) = get k (s_entries s) \/ get k (s_entries (sweep c now rd order s)) = None.
Proof.
  intros N. set (Q := fun t => NoDup (map fst (s_entries t)) /\ (get k (s_entries t) = get k (s_entries s) \/ get k (s_entries t) = None)).
  assert (E : forall k' t, Q t -> Q (evict k' t)).
  { intros k' t [Q1 Q2]. split; [apply nodup_evict; exact Q1|]. rewrite evict_nf. cbn. rewrite (kget_del key_eqb KE). destruct (key_eqb k k'); auto. }
  assert (I : forall l t, Q t -> Q (fold_left (fun s k => evict k s) l t)) by (induction l as [|x l IH]; intros t Qt; cbn; auto).
  unfold sweep. destruct (negb _); [auto|].
  assert (S1 : Q (sweep_cold c now (sweep_idle c now (set_last_sweep now s)))).
  { assert (S0 : Q (sweep_idle c now (set_last_sweep now s))) by (unfold sweep_idle; destruct (c_idle c); [apply I|]; split; auto).
    destruct (sweep_cold_nf c now (sweep_idle c now (set_last_sweep now s))) as (keep & lst & _ & -> & _). destruct S0 as [S0 S1]. split; cbn; [apply filter_keys_nodup; exact S0|].
    destruct (filter_get_cases keep k _ S0) as [->| ->]; auto. }
  destruct (_ && _); [|apply S1]. revert S1. generalize (sweep_cold c now (sweep_idle c now (set_last_sweep now s))). intros t.
  generalize (sort_by_hit (filter (fun p => is_jit t (fst p)) (order (s_meta t)))). intros l S1. apply proj2 with (A := NoDup (map fst (s_entries (sweep_lru c rd 2 l t)))).
  change (Q (sweep_lru c rd 2 l t)). revert S1. generalize 2%nat. revert t.
  induction l as [|[k' v] l IH]; intros t n S1; cbn; [exact S1|]. destruct (_ <=? _); [exact S1|]. apply IH. apply E. exact S1.
Qed.
Lemma hot_act c a s s' k : act c a s = Some s' -> NoDup (map fst (s_entries s)) -> nonneg s -> hot_of k s' <= hot_of k s + (if processes_miss k a s then 1 else 0).
Proof.
  intros H ND N. pose proof (N k) as Nk. destruct a; cbn [act processes_miss] in *; rewrite ?Z.add_0_r.
  - destruct (lookup_decide c busy k0 code s); injection H as <-; apply Z.le_refl.
  - destruct (nth_error (s_looking s) n); [|discriminate]. injection H as <-. destruct (length (s_events s) <? c_cap c)%nat; apply Z.le_refl.
  - injection H as <-. destruct (has k0 (s_resident s)); apply Z.le_refl.
  - destruct (nid_of x) eqn:NX; [discriminate|]. destruct (s_halted s); [injection H as <-; apply Z.le_refl|]. destruct (length (s_cmds s) <? c_cap c)%nat; [|discriminate]. injection H as <-. apply Z.le_refl.
  - destruct (s_halted s); [injection H as <-; apply Z.le_refl|]. destruct (length (s_cmds s) <? c_cap c)%nat; [|discriminate]. injection H as <-. apply Z.le_refl.
  - injection H as <-. apply Z.le_refl.
  - destruct (s_halted s); [discriminate|]. destruct (s_cmds s) as [|x q] eqn:Q; [discriminate|]. injection H as <-. change (hot_of k s) with (hot_of k (set_cmds q s)). destruct x; cbn [handle].
    + pose proof (hot_admitted _ _ _ _ _ _ _ _ _ k (try_admit_cases c (o_io o 0%nat) (o_now o) (if c_aot c then Aot else Jit) k0 code nid Explicit (set_cmds q s)) N). lia.
    + assert (X : forall reqs i t, nonneg t -> hot_of k (handle_prepare_aot c (o_io o) (o_now o) i reqs t) <= hot_of k t).
      { induction reqs0 as [|[k1 code] l IH]; intros i t Nt; cbn [handle_prepare_aot]; [lia|].
        pose proof (fun k => hot_admitted _ _ _ _ _ _ _ _ _ k (try_admit_cases c (o_io o i) (o_now o) Aot k1 code None Explicit t) Nt) as B.
        specialize (IH (S i) (try_admit c (o_io o i) (o_now o) Aot k1 code None Explicit t)). pose proof (B k). assert (nonneg (try_admit c (o_io o i) (o_now o) Aot k1 code None Explicit t)) as NN by (intros k'; apply B). specialize (IH NN). lia. }
      apply X. exact N.
    + apply hot_sub; [exact N|]. right. unfold handle_clear_resident. rewrite notify_all_nf. reflexivity.
    + apply hot_sub; [exact N|]. left. unfold handle_clear_persisted. destruct (s_store _); [destruct (o_io o 0%nat)|]; reflexivity.
    + apply hot_sub; [exact N|]. right. unfold handle_clear_persisted, handle_clear_resident. rewrite notify_all_nf. cbn. destruct (s_store _); [destruct (o_io o 0%nat)|]; reflexivity.
    + apply hot_sub; [exact N|]. right. unfold shutdown. rewrite lose_all_nf. reflexivity.
  - destruct (s_halted s); [discriminate|]. destruct (s_events s) as [|ev q] eqn:Q; [discriminate|]. injection H as <-. unfold handle_lookup_observed. destruct (ev_code ev).
    + rewrite andb_false_r, Z.add_0_r. destruct (has (ev_key ev) _); apply Z.le_refl.
    + rewrite andb_true_r.
      match goal with |- context [try_admit ?a1 ?a2 ?a3 ?a4 ?a5 ?a6 ?a7 ?a8 ?t0] => pose proof (hot_admitted _ _ _ _ _ _ _ _ _ k (try_admit_cases a1 a2 a3 a4 a5 a6 a7 a8 t0) N) as X; change (hot_of k t0) with (hot_of k s) in X end.
      cbn iota in X. lia.
  - destruct (s_halted s); [discriminate|]. destruct (nth_error (s_inflight s) n) as [j|] eqn:NE; [|discriminate]. destruct (j_phase j) eqn:PH; try discriminate. injection H as <-.
    match goal with |- context [handle_worker_result ?a1 ?a2 ?a3 ?a4 ?a5 ?t0] => pose proof (handle_worker_result_cases a1 a2 a3 a4 a5 t0) as H; remember (handle_worker_result a1 a2 a3 a4 a5 t0) as s' eqn:ES; clear ES end.
    assert (X : s_entries s' = del (j_key j) (s_entries s)) by (inversion H; subst; reflexivity). apply hot_sub; [exact N|]. rewrite X, (kget_del key_eqb KE). destruct (key_eqb k (j_key j)); auto.
  - destruct (s_halted s); [discriminate|]. injection H as <-. apply hot_sub; [exact N|]. apply sweep_entries. exact ND.
  - destruct (nth_error (s_inflight s) n) as [j|]; [|discriminate]. destruct (j_phase j); try discriminate. injection H as <-. apply Z.le_refl.
  - destruct (nth_error (s_inflight s) n) as [j|]; [|discriminate]. destruct (j_phase j); try discriminate. injection H as <-. apply Z.le_refl.
Qed.
Lemma hot_runs c k l s s' : runs c s l s' -> forall n, jobs_ok s /\ NoDup (map fst (s_entries s)) -> hot_of k s <= Z.of_nat n -> hot_of k s' <= Z.of_nat (misses_since c k n s l).
Proof.
  induction 1 as [|s a s1 l s2 F H R IH]; intros n J C; cbn [misses_since]; [exact C|]. rewrite H. apply IH; [eapply jobs_act; eauto|].
  pose proof (hot_act _ _ _ _ k H (proj2 J) (jobs_nonneg _ (proj1 J))) as X. unfold has. destruct (get k (s_entries s1)) eqn:G.
  - destruct (processes_miss k a s); lia.
  - unfold hot_of. rewrite G. lia.
Qed.

(** Where new jobs come from. *)
Lemma new_jobs c a s s' j : act c a s = Some s' -> jobs_ok s -> In j (s_inflight s') -> (s_next_job s <= j_id j)%nat ->
  (exists o ev q, a = BEvent o /\ s_events s = ev :: q /\ j_key j = ev_key ev /\ ev_code ev <> [] /\ c_hot c <= hot_of (j_key j) s + 1) \/
  (exists o x q code, a = BCmd o /\ s_cmds s = x :: q /\ In (j_key j, code) (cmd_codes x)).
Proof.
  intros H J I L. assert (OLD : In j (s_inflight s) -> False) by (intros I'; apply (jo_lt _ J) in I'; lia).
  destruct a; cbn [act] in H.
  - exfalso. destruct (lookup_decide c busy k code s); injection H as <-; auto.
  - exfalso. destruct (nth_error (s_looking s) n); [|discriminate]. injection H as <-. destruct (length (s_events s) <? c_cap c)%nat; auto.
  - exfalso. injection H as <-. destruct (has k (s_resident s)); auto.
  - exfalso. destruct (nid_of x) eqn:NX; [discriminate|]. destruct (s_halted s); [injection H as <-; auto|]. destruct (length (s_cmds s) <? c_cap c)%nat; [|discriminate]. injection H as <-. auto.
  - exfalso. destruct (s_halted s); [injection H as <-; auto|]. destruct (length (s_cmds s) <? c_cap c)%nat; [|discriminate]. injection H as <-. auto.
  - exfalso. injection H as <-. auto.
  - destruct (s_halted s); [discriminate|]. destruct (s_cmds s) as [|x q] eqn:Q; [discriminate|]. injection H as <-. right. destruct x; cbn [handle] in I.
    + apply (admitted_jobs _ _ _ _ _ _ _ _ _ _ (try_admit_cases c (o_io o 0%nat) (o_now o) (if c_aot c then Aot else Jit) k code nid Explicit (set_cmds q s))) in I as [I|(_ & _ & _ & I)]; [destruct (OLD I)|].
      exists o, (CompileJit k code nid), q, code. cbn. rewrite I. auto.
    + exists o, (PrepareAot reqs), q. cbn. assert (X : forall i t, In j (s_inflight (handle_prepare_aot c (o_io o) (o_now o) i reqs t)) -> In j (s_inflight t) \/ exists code, In (j_key j, code) reqs).
      { clear. induction reqs as [|[k1 code] l IH]; intros i t I; cbn [handle_prepare_aot] in I; [auto|].
        apply IH in I as [I|[code' I]]; [|right; exists code'; right; exact I].
        apply (admitted_jobs _ _ _ _ _ _ _ _ _ _ (try_admit_cases c (o_io o i) (o_now o) Aot k1 code None Explicit t)) in I as [I|(_ & _ & _ & I)]; [auto|].
        right. exists code. left. congruence. }
      apply X in I as [I|[code I]]; [destruct (OLD I)|]. eauto.
    + exfalso. unfold handle_clear_resident in I. rewrite notify_all_nf in I. auto.
    + exfalso. unfold handle_clear_persisted in I. destruct (s_store _); [destruct (o_io o 0%nat)|]; auto.
    + exfalso. unfold handle_clear_persisted, handle_clear_resident in I. rewrite notify_all_nf in I. cbn in I. destruct (s_store _); [destruct (o_io o 0%nat)|]; auto.
    + exfalso. unfold shutdown in I. rewrite lose_all_nf in I. exact I.
  - destruct (s_halted s); [discriminate|]. destruct (s_events s) as [|ev q] eqn:Q; [discriminate|]. injection H as <-. unfold handle_lookup_observed in I. left. exists o, ev, q. destruct (ev_code ev) eqn:EC.
    + exfalso. destruct (has (ev_key ev) _); auto.
    + match type of I with context [try_admit ?a1 ?a2 ?a3 ?a4 ?a5 ?a6 ?a7 ?a8 ?t0] => pose proof (try_admit_cases a1 a2 a3 a4 a5 a6 a7 a8 t0) as H; remember (try_admit a1 a2 a3 a4 a5 a6 a7 a8 t0) as s' eqn:ES; clear ES end.
      inversion H; subst; rewrite ?notify_nf, ?lose_nf in I; cbn in I; try (destruct (OLD I)). apply in_app_iff in I as [I|[<-|[]]]; [destruct (OLD I)|]. cbn [j_key].
      split; [reflexivity|]. split; [reflexivity|]. split; [reflexivity|]. split; [discriminate|]. specialize (H3 eq_refl). rewrite hot_old in H3. cbn in H3. unfold hot_of in *. cbn in H3. lia.
  - destruct (s_halted s); [discriminate|]. destruct (nth_error (s_inflight s) n) as [j'|] eqn:NE; [|discriminate]. destruct (j_phase j') eqn:PH; try discriminate. injection H as <-.
    exfalso. match type of I with context [handle_worker_result ?a1 ?a2 ?a3 ?a4 ?a5 ?t0] => destruct (resulted_rest _ _ _ _ _ _ (handle_worker_result_cases a1 a2 a3 a4 a5 t0)) as (R1 & R2 & _) end.
    rewrite ?R1, ?R2 in I. cbn in I. apply OLD. eapply del_nth_in; eauto.
  - exfalso. destruct (s_halted s); [discriminate|]. injection H as <-. apply OLD. revert I. clear.
    assert (E : forall k t, s_inflight (evict k t) = s_inflight t) by (intros k t; rewrite evict_nf; reflexivity).
    assert (F : forall l t, s_inflight (fold_left (fun s k => evict k s) l t) = s_inflight t) by (induction l as [|x l IH]; intros t; cbn; [reflexivity|rewrite IH; apply E]).
    unfold sweep. destruct (negb _); [auto|].
    assert (S1 : s_inflight (sweep_cold c now (sweep_idle c now (set_last_sweep now s))) = s_inflight s).
    { destruct (sweep_cold_nf c now (sweep_idle c now (set_last_sweep now s))) as (keep & lst & _ & -> & _). cbn. unfold sweep_idle. destruct (c_idle c); [rewrite F|]; reflexivity. }
    destruct (_ && _); [|rewrite S1; auto]. rewrite <- S1. generalize (sweep_cold c now (sweep_idle c now (set_last_sweep now s))). intros t.
    generalize (sort_by_hit (filter (fun p => is_jit t (fst p)) (order (s_meta t)))). intros l. generalize 2%nat. revert t.
    induction l as [|[k' v] l IH]; intros t n; cbn; [auto|]. destruct (_ <=? _); [auto|]. intros I. apply IH in I. rewrite E in I. exact I.
  - exfalso. destruct (nth_error (s_inflight s) n) as [j'|] eqn:NE; [|discriminate]. destruct (j_phase j'); try discriminate. injection H as <-. cbn in I.
    apply (Permutation_in _ (upd_nth_perm _ _ _ _ NE)) in I as [<-|I]; [|apply OLD; eapply del_nth_in; eauto]. apply nth_error_In in NE. apply (jo_lt _ J) in NE. cbn in L. lia.
  - exfalso. destruct (nth_error (s_inflight s) n) as [j'|] eqn:NE; [|discriminate]. destruct (j_phase j'); try discriminate. injection H as <-. cbn in I.
    apply (Permutation_in _ (upd_nth_perm _ _ _ _ NE)) in I as [<-|I]; [|apply OLD; eapply del_nth_in; eauto]. apply nth_error_In in NE. apply (jo_lt _ J) in NE. cbn in L. lia.
Qed.
