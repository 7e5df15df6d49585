(** Without clears and with working probes, no AOT job is in flight for a key that has an artifact in the
    store (used by C38). *)
From Verif Require Import HoldSpec RuntimeProof RuntimeInv RuntimeInv2 RuntimeInv4 RuntimeInv7.
Open Scope Z_scope.

(** ** Sweeps: an induction principle. *)
Lemma sweep_ind (Q : state -> Prop) c now rd order s : (forall l, Permutation (order l) l) ->
  (forall t k v, Q t -> In (k, v) (s_meta t) -> has k (s_meta s) = true) ->
  Q s -> Q (set_last_sweep now s) -> (forall t k, Q t -> has k (s_meta s) = true -> Q (evict k t)) -> (forall t, Q t -> Q (sweep_cold c now t)) ->
  Q (sweep c now rd order s).
Proof.
  intros PO KM Q00 Q0 QE QC. unfold sweep. destruct (negb (should_sweep c now rd s)) eqn:SW; [exact Q00|].
  set (s0 := set_last_sweep now s) in *.
  assert (Q1 : Q (sweep_idle c now s0)).
  { unfold sweep_idle. destruct (c_idle c) as [idle|] eqn:CI; [|exact Q0].
    assert (KS : forall k, In k (map fst (filter (fun p => now - snd p >? idle) (s_meta s0))) -> has k (s_meta s) = true).
    { intros k Hk. apply in_map_iff in Hk as ([k' v] & <- & Hk). apply filter_In in Hk as [Hk _]. exact (KM _ _ _ Q0 Hk). }
    revert KS Q0. generalize (map fst (filter (fun p => now - snd p >? idle) (s_meta s0))). intros l. generalize s0. induction l as [|k l IH]; intros t KS Qt; cbn; [exact Qt|].
    apply IH; [intros k' Hk'; apply KS; right; exact Hk'|]. apply QE; [exact Qt|apply KS; left; reflexivity]. }
  apply QC in Q1. set (s2 := sweep_cold c now (sweep_idle c now s0)) in *.
  destruct ((c_budget c >? 0) && (rd 1%nat >? c_budget c)) eqn:BU; [|exact Q1].
  set (cands := sort_by_hit _).
  assert (KS : forall k v, In (k, v) cands -> has k (s_meta s) = true).
  { intros k v H. assert (H' : In (k, v) (s_meta s2)).
    { unfold cands in H. assert (SI : forall l, In (k, v) (sort_by_hit l) -> In (k, v) l).
      { induction l as [|x l IH]; cbn; [auto|]. intros I. assert (II : forall y m, In (k, v) (insert_by_hit y m) -> (k, v) = y \/ In (k, v) m).
        { intros y. induction m as [|q m IHm]; cbn; [intros [W|[]]; auto|]. destruct (snd y <=? snd q); cbn; [intros [W|W]; auto|]. intros [W|W]; [auto|]. apply IHm in W as [W|W]; auto. }
        apply II in I as [I|I]; auto. }
      apply SI in H. apply filter_In in H as [H _]. apply (Permutation_in _ (PO _)). exact H. }
    exact (KM _ _ _ Q1 H'). }
  revert KS Q1. generalize 2%nat. generalize cands. clear cands. intros l. generalize s2. clear s2. induction l as [|[k v] l IH]; intros t n KS Qt; cbn; [exact Qt|].
  destruct (rd n <=? c_budget c); [exact Qt|]. apply IH; [intros k' v' H; apply (KS k' v'); right; exact H|].
  apply QE; [exact Qt|apply (KS k v); left; reflexivity].
Qed.
Lemma in_has {V} k (v : V) m : In (k, v) m -> has k m = true.
Proof.
  intros H. apply has_get. destruct (get k m) eqn:G; [eauto|]. exfalso. apply (kget_none key_eqb KE) in G. apply G. apply (in_map fst) in H. exact H.
Qed.

(** ** The invariant. *)
Definition persisted (c : config) (k : key) (s : state) : Prop := exists st f, s_store s = Some st /\ kget akey_eqb (k, c_aot_opt c) st = Some f.
Definition working (k : key) (s : state) : Prop := (exists e, get k (s_entries s) = Some e /\ e_phase e = Working) /\ has k (s_resident s) = false.
Record lone (c : config) (s : state) : Prop := {
  lo_aot : forall j, In j (s_inflight s) -> j_kind j = Aot -> ~ persisted c (j_key j) s /\ working (j_key j) s;
  lo_jit : forall j, In j (s_inflight s) -> persisted c (j_key j) s \/ working (j_key j) s;
  lo_one : forall j j', In j (s_inflight s) -> In j' (s_inflight s) -> j_key j = j_key j' -> j_id j = j_id j' \/ persisted c (j_key j) s;
  lo_kind : forall j o, In j (s_inflight s) -> j_phase j = Done o -> o <> OErr -> (o = OAot <-> j_kind j = Aot) }.

Lemma lone_same c s s' : s_resident s' = s_resident s -> s_entries s' = s_entries s -> s_store s' = s_store s -> s_inflight s' = s_inflight s -> lone c s -> lone c s'.
Proof.
  intros E1 E2 E3 E4 [A B C D].
  assert (P : forall k, persisted c k s' <-> persisted c k s) by (intros k; unfold persisted; rewrite E3; reflexivity).
  assert (W : forall k, working k s' <-> working k s) by (intros k; unfold working; rewrite E1, E2; reflexivity).
  split; rewrite ?E4; [intros; rewrite P, W; auto|intros; rewrite P, W; auto|intros; rewrite P; auto|exact D].
Qed.

(** A request: when an AOT job is dispatched the store has no artifact of the key, provided the probe works. *)
Lemma admit_probe c now k code nid m s : persisted c k s -> s_inflight (try_admit c true now Aot k code nid m s) = s_inflight s.
Proof.
  intros (st & f & S & F). unfold try_admit. destruct (has k (s_resident s)); [rewrite notify_nf; reflexivity|]. destruct (negb (should_compile c code)); [rewrite notify_nf; reflexivity|].
  match goal with |- context [if ?b then lose nid s else _] => destruct b; [rewrite lose_nf; reflexivity|] end.
  unfold try_load_persisted_aot. rewrite S, F. rewrite notify_nf. reflexivity.
Qed.

Lemma lone_admit c io now kd k code nid m s : (kd = Aot -> io = true) -> lone c s -> lone c (try_admit c io now kd k code nid m s).
Proof.
  intros IO L. pose proof (try_admit_cases c io now kd k code nid m s) as H.
  assert (PR : kd = Aot -> persisted c k s -> s_inflight (try_admit c io now kd k code nid m s) = s_inflight s).
  { intros -> P. rewrite (IO eq_refl). apply admit_probe. exact P. }
  set (s' := try_admit c io now kd k code nid m s) in *. clearbody s'. destruct L as [A B C D].
  assert (NW : forall e, e = old_entry k code now s -> e_phase e = Cold -> ~ working k s).
  { intros e -> EC [(e' & G & W) _]. unfold old_entry in EC. rewrite G in EC. congruence. }
  assert (Other : forall v t, s_resident t = s_resident s -> s_entries t = set k v (s_entries s) -> forall k', (k' = k -> e_phase v = Working) -> working k' s -> working k' t).
  { intros v t E1 E2 k' KV [(e & G & W) R]. unfold working. rewrite E1, E2. split; [|exact R]. rewrite (kget_set key_eqb KE). destruct (key_eqb k' k) eqn:E; [|eauto].
    apply KE in E. exists v. auto. }
  inversion H; subst s'; rewrite ?notify_nf, ?lose_nf in *.
  - apply (lone_same c s); try reflexivity. split; assumption.
  - apply (lone_same c s); try reflexivity. split; assumption.
  - match goal with |- lone c ?t => set (s' := t) in * end.
    assert (P : forall k', persisted c k' s' <-> persisted c k' s) by reflexivity. assert (PK : persisted c k s) by (exists st, f; auto).
    assert (W : forall k', k' <> k -> working k' s -> working k' s').
    { intros k' N [G R]. split; [exact G|]. cbn. rewrite has_set, R, orb_false_r. destruct (key_eqb k' k) eqn:E; [apply KE in E; congruence|reflexivity]. }
    split; cbn [s_inflight set_notified insert_resident set_meta set_resident s'].
    + intros j I KA. destruct (A j I KA) as [NP WK]. split; [exact NP|]. apply W; [|exact WK]. intros E. apply NP. rewrite E. exact PK.
    + intros j I. destruct (key_eqb (j_key j) k) eqn:E; [apply KE in E; left; rewrite E; exact PK|]. destruct (B j I) as [X|X]; [left; exact X|right]. apply W; [|exact X]. intros Y. rewrite Y, (eqb_refl _ KE) in E. discriminate.
    + exact C.
    + exact D.
  - split; cbn [s_inflight set_entries]; auto.
    + intros j I KA. destruct (A j I KA) as [NP WK]. split; [exact NP|]. eapply Other; [reflexivity|cbn; reflexivity|reflexivity|exact WK].
    + intros j I. destruct (B j I) as [X|X]; [left; exact X|right]. eapply Other; [reflexivity|cbn; reflexivity|reflexivity|exact X].
  - match goal with E1 : e = old_entry _ _ _ _, E2 : e_phase e = Cold |- _ => specialize (NW e E1 E2) end. split; cbn [s_inflight set_entries set_lost set_notified]; auto.
    + intros j I KA. destruct (A j I KA) as [NP WK]. split; [exact NP|]. eapply Other; [reflexivity|cbn; reflexivity| |exact WK]. intros E. rewrite E in WK. tauto.
    + intros j I. destruct (B j I) as [X|X]; [left; exact X|right]. eapply Other; [reflexivity|cbn; reflexivity| |exact X]. intros E. rewrite E in X. tauto.
  - match goal with E1 : e = old_entry _ _ _ _, E2 : e_phase e = Cold |- _ => specialize (NW e E1 E2) end. split; cbn [s_inflight set_entries set_lost set_notified]; auto.
    + intros j I KA. destruct (A j I KA) as [NP WK]. split; [exact NP|]. eapply Other; [reflexivity|cbn; reflexivity| |exact WK]. intros E. rewrite E in WK. tauto.
    + intros j I. destruct (B j I) as [X|X]; [left; exact X|right]. eapply Other; [reflexivity|cbn; reflexivity| |exact X]. intros E. rewrite E in X. tauto.
  - match goal with E1 : e = old_entry _ _ _ _, E2 : e_phase e = Cold |- _ => specialize (NW e E1 E2) end.
    match goal with |- lone c ?t => set (s' := t) in * end.
    set (j0 := mkJob _ _ _ _ _ _ _) in *.
    assert (IF : s_inflight s' = s_inflight s ++ [j0]) by reflexivity.
    assert (P : forall k', persisted c k' s' <-> persisted c k' s) by reflexivity.
    assert (NP0 : kd = Aot -> ~ persisted c k s).
    { intros KD PK. specialize (PR KD PK). rewrite IF in PR. apply (f_equal (@length job)) in PR. rewrite app_length in PR. cbn in PR. lia. }
    assert (W : forall k', working k' s -> working k' s') by (intros k' X; eapply Other; [reflexivity|cbn; reflexivity|reflexivity|exact X]).
    assert (W0 : working k s').
    { split; [|assumption]. cbn. rewrite (kget_set key_eqb KE), (eqb_refl _ KE). eauto. }
    clearbody s'. split; rewrite ?IF.
    + intros j I KA. rewrite P. apply in_app_iff in I as [I|[<-|[]]]; [destruct (A j I KA); auto|]. cbn in *. auto.
    + intros j I. rewrite P. apply in_app_iff in I as [I|[<-|[]]]; [destruct (B j I); auto|]. auto.
    + intros j j' I I' E. rewrite P. apply in_app_iff in I as [I|[<-|[]]]; apply in_app_iff in I' as [I'|[<-|[]]]; auto.
      * cbn in E. right. destruct (B j I) as [X|X]; [exact X|]. rewrite E in X. tauto.
      * cbn in E. right. destruct (B j' I') as [X|X]; [cbn; rewrite E; exact X|]. rewrite <- E in X. tauto.
    + intros j o I. apply in_app_iff in I as [I|[<-|[]]]; [eapply D; eauto|discriminate].
Qed.
Lemma lone_prepare c io now reqs : (forall n, io n = true) -> forall n s, lone c s -> lone c (handle_prepare_aot c io now n reqs s).
Proof.
  intros IO. induction reqs as [|[k code] reqs IH]; intros n s L; cbn; [exact L|]. apply IH. apply lone_admit; auto.
Qed.

Lemma lone_result c io now n j o s : nth_error (s_inflight s) n = Some j -> j_phase j = Done o -> NoDup (map j_id (s_inflight s)) -> lone c s ->
  lone c (handle_worker_result c io now j o (set_inflight (del_nth n (s_inflight s)) s)).
Proof.
  intros N PH ND [A B C D]. pose proof (handle_worker_result_cases c io now j o (set_inflight (del_nth n (s_inflight s)) s)) as H.
  set (s' := handle_worker_result _ _ _ _ _ _) in *. clearbody s'.
  pose proof (del_nth_perm _ _ _ N) as PM. pose proof (nth_error_In _ _ N) as IJ.
  assert (SUB : forall x, In x (del_nth n (s_inflight s)) -> In x (s_inflight s)) by (intros x I; apply (Permutation_in x (Permutation_sym PM)); right; exact I).
  assert (NID : forall x, In x (del_nth n (s_inflight s)) -> j_id x <> j_id j).
  { intros x I E. apply (Permutation_map j_id) in PM. apply (Permutation_NoDup PM) in ND. cbn in ND. inversion ND; subst. apply H2. rewrite <- E. apply in_map. exact I. }
  assert (SK : forall x, In x (del_nth n (s_inflight s)) -> j_key x = j_key j -> persisted c (j_key j) s).
  { intros x I E. destruct (C j x IJ (SUB x I) (eq_sym E)) as [X|X]; [exfalso; apply (NID x I); congruence|exact X]. }
  assert (AK : forall x, In x (del_nth n (s_inflight s)) -> j_kind x = Aot -> j_key x <> j_key j).
  { intros x I KA E. destruct (A x (SUB x I) KA) as [NP _]. apply NP. rewrite E. apply (SK x I E). }
  assert (JA : j_kind j = Aot -> forall x, In x (del_nth n (s_inflight s)) -> j_key x <> j_key j).
  { intros KA x I E. destruct (A j IJ KA) as [NP _]. apply NP. apply (SK x I E). }
  assert (Main : s_inflight s' = del_nth n (s_inflight s) -> s_entries s' = del (j_key j) (s_entries s) ->
    (s_resident s' = s_resident s \/ exists p, s_resident s' = set (j_key j) p (s_resident s)) ->
    (s_store s' = s_store s \/ exists f st, j_kind j = Aot /\ s_store s = Some st /\ s_store s' = Some (kset akey_eqb (j_key j, c_aot_opt c) f st)) -> lone c s').
  { intros EI EE ER ES.
    assert (W : forall k, k <> j_key j -> working k s -> working k s').
    { intros k NK [(e & G & WK) R]. split.
      - exists e. rewrite EE, (kget_del key_eqb KE). destruct (key_eqb k (j_key j)) eqn:E; [apply KE in E; congruence|auto].
      - destruct ER as [->|(p & ->)]; [exact R|]. rewrite has_set, R, orb_false_r. destruct (key_eqb k (j_key j)) eqn:E; [apply KE in E; congruence|reflexivity]. }
    assert (P : forall k, k <> j_key j -> (persisted c k s' <-> persisted c k s)).
    { intros k NK. unfold persisted. destruct ES as [->|(f & st & _ & E1 & E2)]; [reflexivity|]. rewrite E1, E2. split; intros (st' & f' & E & G); injection E as <-; [|exists (kset akey_eqb (j_key j, c_aot_opt c) f st), f'; split; [reflexivity|]].
      - exists st, f'. split; [reflexivity|]. rewrite (kget_set akey_eqb AE) in G. destruct (akey_eqb _ _) eqn:E; [apply AE in E; injection E as E; congruence|exact G].
      - rewrite (kget_set akey_eqb AE). destruct (akey_eqb _ _) eqn:E; [apply AE in E; injection E as E; congruence|exact G]. }
    assert (PM2 : forall k, persisted c k s -> persisted c k s').
    { intros k (st' & f' & E & G). unfold persisted. destruct ES as [->|(f & st & _ & E1 & E2)]; [eauto|]. rewrite E2. rewrite E1 in E. injection E as <-.
      exists (kset akey_eqb (j_key j, c_aot_opt c) f st). rewrite (kget_set akey_eqb AE). destruct (akey_eqb _ _); eauto. }
    split; rewrite ?EI.
    - intros x I KA. pose proof (AK x I KA) as NK. destruct (A x (SUB x I) KA) as [NP WK]. rewrite P by exact NK. split; [exact NP|apply W; assumption].
    - intros x I. destruct (key_eqb (j_key x) (j_key j)) eqn:E.
      + apply KE in E. left. apply PM2. rewrite E. apply (SK x I E).
      + assert (NK : j_key x <> j_key j) by (intros X; rewrite X, (eqb_refl _ KE) in E; discriminate). destruct (B x (SUB x I)) as [X|X]; [left; apply PM2; exact X|right; apply W; assumption].
    - intros x y I I' E. destruct (C x y (SUB x I) (SUB y I') E) as [X|X]; [auto|]. right. apply PM2. exact X.
    - intros x oc I. apply D. apply SUB. exact I. }
  assert (KA : o = OAot -> j_kind j = Aot) by (intros ->; apply (D j OAot IJ PH); [discriminate|reflexivity]).
  inversion H; subst s'; apply Main; cbn; eauto 10.
Qed.

Lemma lone_evict c k s : has k (s_resident s) = true \/ (forall j, In j (s_inflight s) -> j_key j = k -> j_kind j <> Aot /\ persisted c k s) -> lone c s -> lone c (evict k s).
Proof.
  intros HK [A B C D].
  assert (KJ : forall j, In j (s_inflight s) -> j_key j = k -> j_kind j <> Aot /\ persisted c k s).
  { destruct HK as [HK|HK]; [|exact HK]. intros j I E. split.
    - intros KA. destruct (A j I KA) as [_ [_ R]]. rewrite E in R. congruence.
    - destruct (B j I) as [X|[_ R]]; rewrite E in *; [exact X|congruence]. }
  rewrite evict_nf. match goal with |- lone c ?t => set (s' := t) end.
  assert (P : forall k', persisted c k' s' <-> persisted c k' s) by reflexivity.
  assert (W : forall k', k' <> k -> working k' s -> working k' s').
  { intros k' N [(e & G & WK) R]. split; cbn.
    - exists e. rewrite (kget_del key_eqb KE). destruct (key_eqb k' k) eqn:E; [apply KE in E; congruence|auto].
    - rewrite has_del, R, andb_false_r. reflexivity. }
  split; cbn [s' s_inflight set_evicted set_lost set_entries set_meta set_resident].
  - intros j I KA. destruct (A j I KA) as [NP WK]. split; [exact NP|]. apply W; [|exact WK]. intros E. destruct (KJ j I E). tauto.
  - intros j I. destruct (key_eqb (j_key j) k) eqn:E; [apply KE in E; left; rewrite E; apply (KJ j I E)|]. destruct (B j I) as [X|X]; [left; exact X|right]. apply W; [|exact X]. intros Y. rewrite Y, (eqb_refl _ KE) in E. discriminate.
  - exact C.
  - exact D.
Qed.

Lemma filter_has {V} (keep : key * V -> bool) k e (l : list (key * V)) : NoDup (map fst l) -> get k l = Some e -> keep (k, e) = true -> get k (filter keep l) = Some e.
Proof.
  intros N G K. apply (in_kget key_eqb KE); [apply filter_keys_nodup; exact N|]. apply filter_In. split; [apply (kget_in key_eqb KE); exact G|exact K].
Qed.
Lemma lone_cold c now s : NoDup (map fst (s_entries s)) -> lone c s -> lone c (sweep_cold c now s).
Proof.
  intros N [A B C D]. destruct (sweep_cold_nf c now s) as (keep & lst & KP & -> & _).
  match goal with |- lone c ?t => set (s' := t) end.
  assert (W : forall k', working k' s -> working k' s').
  { intros k' [(e & G & WK) R]. split; [|exact R]. exists e. split; [|exact WK]. cbn. apply filter_has; [exact N|exact G|]. destruct (keep (k', e)) eqn:E; [reflexivity|].
    apply KP in E; [|apply (kget_in key_eqb KE); exact G]. cbn in E. destruct E; congruence. }
  split; cbn [s' s_inflight set_lost set_entries]; auto.
  - intros j I KA. destruct (A j I KA) as [NP WK]. split; [exact NP|]. apply W. exact WK.
  - intros j I. destruct (B j I) as [X|X]; [left; exact X|right; apply W; exact X].
Qed.

Lemma lone_sweep c now rd order s : (forall l, Permutation (order l) l) -> maps_ok s -> lone c s -> lone c (sweep c now rd order s).
Proof.
  intros PO M L.
  set (Q := fun t => lone c t /\ NoDup (map fst (s_entries t)) /\ s_inflight t = s_inflight s /\ s_store t = s_store s /\ (forall k v, In (k, v) (s_meta t) -> has k (s_meta s) = true)).
  enough (X : Q (sweep c now rd order s)) by apply X.
  apply (sweep_ind Q c now rd order s PO).
  - intros t k v (_ & _ & _ & _ & X) I. eauto.
  - split; [exact L|]. split; [apply M|]. split; [reflexivity|]. split; [reflexivity|]. intros k v I. eapply in_has; eauto.
  - split; [apply (lone_same c s); try reflexivity; exact L|]. split; [apply M|]. split; [reflexivity|]. split; [reflexivity|]. intros k v I. eapply in_has; eauto.
  - intros t k (T1 & T2 & T3 & T4 & T5) HK. split.
    + apply lone_evict; [|exact T1]. right. intros j I E. rewrite T3 in I. rewrite <- (mo_keys _ M) in HK. destruct L as [A B C D].
      assert (PP : persisted c k t <-> persisted c k s) by (unfold persisted; rewrite T4; reflexivity). rewrite PP. split.
      * intros KA. destruct (A j I KA) as [_ [_ R]]. rewrite E in R. congruence.
      * destruct (B j I) as [X|[_ R]]; rewrite E in *; [exact X|congruence].
    + rewrite evict_nf. cbn. split; [apply (kdel_nodup key_eqb); exact T2|]. split; [exact T3|]. split; [exact T4|]. intros k' v I. apply (kdel_in key_eqb KE) in I as [I _]. eauto.
  - intros t (T1 & T2 & T3 & T4 & T5). split; [apply lone_cold; assumption|]. destruct (sweep_cold_nf c now t) as (keep & lst & _ & -> & _). cbn. split; [apply filter_keys_nodup; exact T2|]. auto.
Qed.

Lemma lone_phase c n j ph s : nth_error (s_inflight s) n = Some j -> (forall o, ph = Done o -> o <> OErr -> (o = OAot <-> j_kind j = Aot)) -> lone c s ->
  forall s', s_resident s' = s_resident s -> s_entries s' = s_entries s -> s_store s' = s_store s -> s_inflight s' = upd_nth n (with_phase j ph) (s_inflight s) -> lone c s'.
Proof.
  intros N PH [A B C D] s' E1 E2 E3 E4. pose proof (del_nth_perm _ _ _ N) as PM. pose proof (upd_nth_perm _ _ _ (with_phase j ph) N) as PU.
  assert (P : forall k, persisted c k s' <-> persisted c k s) by (intros k; unfold persisted; rewrite E3; reflexivity).
  assert (W : forall k, working k s' <-> working k s) by (intros k; unfold working; rewrite E1, E2; reflexivity).
  assert (SUB : forall x, In x (s_inflight s') -> exists y, In y (s_inflight s) /\ j_key x = j_key y /\ j_kind x = j_kind y /\ j_id x = j_id y /\ (x = y \/ (y = j /\ j_phase x = ph))).
  { intros x I. rewrite E4 in I. apply (Permutation_in x PU) in I as [<-|I].
    - exists j. split; [eapply nth_error_In; eauto|]. cbn. auto 10.
    - exists x. split; [apply (Permutation_in x (Permutation_sym PM)); right; exact I|auto 10]. }
  split.
  - intros x I KA. destruct (SUB x I) as (y & Iy & K1 & K2 & _). rewrite K1, P, W. apply A; congruence.
  - intros x I. destruct (SUB x I) as (y & Iy & K1 & _). rewrite K1, P, W. auto.
  - intros x x' I I' E. destruct (SUB x I) as (y & Iy & K1 & _ & K3 & _). destruct (SUB x' I') as (y' & Iy' & K1' & _ & K3' & _). rewrite K1, K3, K3', P. apply C; congruence.
  - intros x o I. destruct (SUB x I) as (y & Iy & K1 & K2 & _ & [->|[-> X]]); [apply D; exact Iy|]. rewrite X, K2. intros ->. apply PH. reflexivity.
Qed.

(** ** Quiet histories. *)
Lemma quiet_cmds c a s s' : act c a s = Some s' -> quiet a -> existsb any_clear (s_cmds s) = false -> existsb any_clear (s_cmds s') = false.
Proof.
  intros H Q N. destruct (existsb any_clear (s_cmds s')) eqn:E; [|reflexivity]. apply existsb_exists in E as (x & I & E).
  assert (X : In x (s_cmds s) \/ any_clear x = false).
  { destruct a; cbn [act quiet] in *.
    - destruct (lookup_decide c busy k code s); injection H as <-; auto.
    - destruct (nth_error (s_looking s) n); [|discriminate]. injection H as <-. destruct (length (s_events s) <? c_cap c)%nat; auto.
    - injection H as <-. destruct (has k (s_resident s)); auto.
    - destruct (nid_of x0) eqn:NX; [discriminate|]. destruct (s_halted s); [injection H as <-; auto|]. destruct (length (s_cmds s) <? c_cap c)%nat; [|discriminate]. injection H as <-. cbn in I. apply in_app_iff in I as [I|[<-|[]]]; auto.
    - destruct (s_halted s); [injection H as <-; auto|]. destruct (length (s_cmds s) <? c_cap c)%nat; [|discriminate]. injection H as <-. cbn in I. apply in_app_iff in I as [I|[<-|[]]]; auto.
    - injection H as <-. auto.
    - destruct (s_halted s); [discriminate|]. destruct (s_cmds s) as [|y q]; [discriminate|]. injection H as <-. left. right. destruct (handle_frame c o y (set_cmds q s)) as (_ & _ & HF). exact (HF _ I).
    - destruct (s_halted s); [discriminate|]. destruct (s_events s) as [|ev q]; [discriminate|]. injection H as <-. unfold handle_lookup_observed in I. destruct (ev_code ev).
      + destruct (has (ev_key ev) _); auto.
      + match type of I with context [try_admit ?a1 ?a2 ?a3 ?a4 ?a5 ?a6 ?a7 ?a8 ?t0] => destruct (admitted_frame _ _ _ _ _ _ _ _ _ (try_admit_cases a1 a2 a3 a4 a5 a6 a7 a8 t0)) as (F & _) end.
        rewrite F in I. auto.
    - destruct (s_halted s); [discriminate|]. destruct (nth_error (s_inflight s) n) as [j|]; [|discriminate]. destruct (j_phase j); try discriminate. injection H as <-.
      match type of I with context [handle_worker_result ?a1 ?a2 ?a3 ?a4 ?a5 ?t0] => destruct (resulted_frame _ _ _ _ _ _ (handle_worker_result_cases a1 a2 a3 a4 a5 t0)) as (F & _) end.
      rewrite F in I. auto.
    - destruct (s_halted s); [discriminate|]. injection H as <-. destruct (sweep_frame c now rd order s) as (F & _). rewrite F in I. auto.
    - destruct (nth_error (s_inflight s) n) as [j|]; [|discriminate]. destruct (j_phase j); try discriminate. injection H as <-. auto.
    - destruct (nth_error (s_inflight s) n) as [j|]; [|discriminate]. destruct (j_phase j); try discriminate. injection H as <-. auto. }
  destruct X as [X|X]; [|congruence]. assert (existsb any_clear (s_cmds s) = true) by (apply existsb_exists; eauto). congruence.
Qed.

Lemma lone_act c a s s' : fair_action a -> act c a s = Some s' -> quiet a -> existsb any_clear (s_cmds s) = false -> maps_ok s -> NoDup (map j_id (s_inflight s)) -> lone c s -> lone c s'.
Proof.
  intros F H Q N M ND L. destruct a; cbn [act quiet fair_action] in *.
  - destruct (lookup_decide c busy k code s); injection H as <-; revert L; apply lone_same; reflexivity.
  - destruct (nth_error (s_looking s) n); [|discriminate]. injection H as <-. destruct (length (s_events s) <? c_cap c)%nat; revert L; apply lone_same; reflexivity.
  - injection H as <-. destruct (has k (s_resident s)); revert L; apply lone_same; reflexivity.
  - destruct (nid_of x) eqn:NX; [discriminate|]. destruct (s_halted s); [injection H as <-; exact L|]. destruct (length (s_cmds s) <? c_cap c)%nat; [|discriminate]. injection H as <-. revert L; apply lone_same; reflexivity.
  - destruct (s_halted s); [injection H as <-; revert L; apply lone_same; reflexivity|]. destruct (length (s_cmds s) <? c_cap c)%nat; [|discriminate]. injection H as <-. revert L; apply lone_same; reflexivity.
  - injection H as <-. revert L; apply lone_same; reflexivity.
  - destruct (s_halted s); [discriminate|]. destruct (s_cmds s) as [|y q]; [discriminate|]. injection H as <-. cbn in N. apply orb_false_iff in N as [N _].
    assert (L' : lone c (set_cmds q s)) by (revert L; apply lone_same; reflexivity).
    destruct y; try discriminate; cbn [handle].
    + apply lone_admit; [intros _; apply Q|exact L'].
    + apply lone_prepare; [exact Q|exact L'].
    + unfold shutdown. rewrite lose_all_nf. split; cbn; intros; tauto.
  - destruct (s_halted s); [discriminate|]. destruct (s_events s) as [|ev q]; [discriminate|]. injection H as <-. unfold handle_lookup_observed. destruct (ev_code ev).
    + destruct (has (ev_key ev) _); revert L; apply lone_same; reflexivity.
    + apply lone_admit; [intros _; apply Q|]. revert L; apply lone_same; reflexivity.
  - destruct (s_halted s); [discriminate|]. destruct (nth_error (s_inflight s) n) as [j|] eqn:NT; [|discriminate]. destruct (j_phase j) as [| |oc] eqn:PH; try discriminate. injection H as <-.
    apply lone_result; assumption.
  - destruct (s_halted s); [discriminate|]. injection H as <-. apply lone_sweep; assumption.
  - destruct (nth_error (s_inflight s) n) as [j|] eqn:NT; [|discriminate]. destruct (j_phase j); try discriminate. injection H as <-.
    eapply (lone_phase c n j Running); eauto. discriminate.
  - destruct (nth_error (s_inflight s) n) as [j|] eqn:NT; [|discriminate]. destruct (j_phase j); try discriminate. injection H as <-.
    eapply (lone_phase c n j (Done (outcome_of c (j_kind j) ok))); eauto. intros o E NE. injection E as <-. unfold outcome_of in *. destruct ok; [|congruence]. destruct (j_kind j); [destruct (c_oop c)|]; split; congruence.
Qed.

Lemma lone_runs c l s s' : runs c s l s' -> Forall quiet l -> existsb any_clear (s_cmds s) = false -> maps_ok s -> jobs_ok s -> NoDup (map fst (s_entries s)) -> lone c s -> lone c s'.
Proof.
  induction 1 as [|s a s1 l s2 F H R IH]; [auto|]. intros Q N M J E L. apply Forall_cons_iff in Q as [Q1 Q2].
  assert (R1 : runs c s [a] s1) by (econstructor; eauto; constructor).
  destruct (jobs_inv _ _ _ _ R1 (conj J E)) as [J1 E1]. apply IH; auto.
  - eapply quiet_cmds; eauto.
  - eapply maps_inv; eauto.
  - eapply lone_act; eauto. apply (jo_ids _ J).
Qed.
