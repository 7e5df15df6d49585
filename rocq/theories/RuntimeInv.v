(** Invariants of the runtime backend over all executions. *)
From Verif Require Import RuntimeModel RuntimeProof.
Open Scope Z_scope.

(** ** A proof principle: invariants that depend only on the core fields. *)
Definition same_core (s s' : state) : Prop :=
  s_resident s' = s_resident s /\ s_meta s' = s_meta s /\ s_entries s' = s_entries s /\ s_store s' = s_store s /\
  s_pending s' = s_pending s /\ s_gen s' = s_gen s /\ s_inflight s' = s_inflight s /\ s_queued s' = s_queued s /\
  s_halted s' = s_halted s /\ s_dispatched s' = s_dispatched s /\ s_succeeded s' = s_succeeded s /\
  s_failed s' = s_failed s /\ s_next_job s' = s_next_job s /\ (s_halted s = false -> s_lost s' = s_lost s).

Definition sub_entries (s s0 : state) : Prop := forall k e, get k (s_entries s) = Some e -> get k (s_entries s0) = Some e.
Definition sub_meta (s s0 : state) : Prop := forall k, has k (s_meta s) = true -> has k (s_meta s0) = true.

Lemma evict_nf k s : evict k s =
  set_evicted (S (s_evicted s)) (set_lost (rev (somes (pend_of k s)) ++ s_lost s) (set_entries (del k (s_entries s)) (set_meta (del k (s_meta s)) (set_resident (del k (s_resident s)) s)))).
Proof. unfold evict. rewrite entries_remove_nf. reflexivity. Qed.

Lemma sweep_cold_nf c now s : exists keep lst, (forall p, In p (s_entries s) -> keep p = false -> e_phase (snd p) = Cold /\ has (fst p) (s_resident s) = false) /\
  sweep_cold c now s = set_lost lst (set_entries (filter keep (s_entries s)) s) /\
  lst = rev (somes (flat_map (fun p => e_pend (snd p)) (filter (fun p => negb (keep p)) (s_entries s)))) ++ s_lost s.
Proof.
  unfold sweep_cold. destruct (c_idle c) as [idle|].
  - exists (fun p => negb (stale_cold now idle s p)). eexists. split; [|split; [rewrite lose_all_nf; reflexivity|]].
    + intros p _ H. apply negb_false_iff in H. unfold stale_cold in H. apply andb_true_iff in H as [H H2]. apply andb_true_iff in H as [H _].
      apply negb_true_iff in H2. destruct (e_phase (snd p)); [auto|discriminate].
    + cbn. f_equal. f_equal. f_equal. f_equal. apply filter_ext. intros p. symmetry. apply negb_involutive.
  - exists (fun _ => true). eexists. split; [discriminate|]. split; [|reflexivity].
    assert (F : forall l : list (key * entry), filter (fun _ => true) l = l) by (induction l as [|x l IH]; cbn; congruence).
    assert (G : forall l : list (key * entry), filter (fun _ => negb true) l = []) by (induction l as [|x l IH]; cbn; [reflexivity|exact IH]).
    rewrite F, G. destruct s; reflexivity.
Qed.

Lemma filter_get {V} (keep : key * V -> bool) k e (l : list (key * V)) : NoDup (map fst l) -> get k (filter keep l) = Some e -> get k l = Some e.
Proof.
  intros N H. apply (kget_in key_eqb KE) in H. apply filter_In in H as [H _]. apply (in_kget key_eqb KE); assumption.
Qed.

(** [P] is preserved by every micro-step from states that also satisfy [K]. [Good] is what is known about
    every (key, bytecode, notifier) in the command and event queues. *)
Record pres (c : config) (Good : key -> list Z -> option nat -> Prop) (K P : state -> Prop) : Prop := {
  Same : forall s s', same_core s s' -> P s -> P s';
  Adm : forall now kd k code nid m s s', Good k code nid -> (m = Observed -> nid = None) -> admitted c now kd k code nid m s s' -> s_halted s = false -> K s -> P s -> P s';
  Res : forall now n j o s s', nth_error (s_inflight s) n = Some j -> j_phase j = Done o ->
    resulted c now j o (set_inflight (del_nth n (s_inflight s)) s) s' -> s_halted s = false -> K s -> P s -> P s';
  Clr : forall s, K s -> P s -> P (handle_clear_resident s);
  Per : forall io s, K s -> P s -> P (handle_clear_persisted io s);
  Ev : forall s0 s k, has k (s_meta s0) = true -> (c_idle c <> None \/ c_budget c > 0) -> K s0 -> P s0 ->
    (forall e, get k (s_entries s) = Some e -> exists e', get k (s_entries s0) = Some e') -> s_store s = s_store s0 -> K s -> P s -> P (evict k s);
  Tch : forall k now s, has k (s_meta s) = true -> K s -> P s -> P (set_meta (set k now (s_meta s)) s);
  Cld : forall now s, K s -> P s -> P (sweep_cold c now s);
  Hlt : forall s, K s -> P s -> P (shutdown s);
  Wst : forall n j s, nth_error (s_inflight s) n = Some j -> j_phase j = Queued -> K s -> P s ->
    P (set_inflight (upd_nth n (with_phase j Running) (s_inflight s)) (set_queued (s_queued s - 1)%nat s));
  Wfi : forall n j ok s, nth_error (s_inflight s) n = Some j -> j_phase j = Running -> K s -> P s ->
    P (set_inflight (upd_nth n (with_phase j (Done (outcome_of c (j_kind j) ok))) (s_inflight s)) s) }.

(** Invariants can be established on top of each other. *)
Lemma pres_and c Good (K P : state -> Prop) : pres c Good (fun _ => True) K -> pres c Good K P -> pres c Good (fun _ => True) (fun s => K s /\ P s).
Proof.
  intros A B. split.
  - intros s s' H [X Y]. split; [eapply (Same _ _ _ _ A)|eapply (Same _ _ _ _ B)]; eauto.
  - intros now kd k code nid m s s' G GO H HH _ [X Y]. split; [eapply (Adm _ _ _ _ A)|eapply (Adm _ _ _ _ B)]; eauto.
  - intros now n j o s s' N PH H HH _ [X Y]. split; [eapply (Res _ _ _ _ A)|eapply (Res _ _ _ _ B)]; eauto.
  - intros s _ [X Y]. split; [apply (Clr _ _ _ _ A)|apply (Clr _ _ _ _ B)]; auto.
  - intros io s _ [X Y]. split; [apply (Per _ _ _ _ A)|apply (Per _ _ _ _ B)]; auto.
  - intros s0 s k H E _ [X0 Y0] HE HS _ [X Y]. split; [eapply (Ev _ _ _ _ A)|eapply (Ev _ _ _ _ B)]; eauto.
  - intros k now s H _ [X Y]. split; [apply (Tch _ _ _ _ A)|apply (Tch _ _ _ _ B)]; auto.
  - intros now s _ [X Y]. split; [apply (Cld _ _ _ _ A)|apply (Cld _ _ _ _ B)]; auto.
  - intros s _ [X Y]. split; [apply (Hlt _ _ _ _ A)|apply (Hlt _ _ _ _ B)]; auto.
  - intros n j s N PH _ [X Y]. split; [apply (Wst _ _ _ _ A)|apply (Wst _ _ _ _ B)]; auto.
  - intros n j ok s N PH _ [X Y]. split; [apply (Wfi _ _ _ _ A)|apply (Wfi _ _ _ _ B)]; auto.
Qed.

Lemma admitted_halted c now kd k code nid m s s' : admitted c now kd k code nid m s s' -> s_halted s' = s_halted s.
Proof. intros H. inversion H; subst; rewrite ?notify_nf, ?lose_nf; reflexivity. Qed.

Section Principle.
  Variable c : config.
  Variable P : state -> Prop.
  Variable Good : key -> list Z -> option nat -> Prop.
  Hypothesis PR : pres c Good (fun _ => True) P.
  Local Notation Same := (Same _ _ _ _ PR).
  Local Notation Adm := (Adm _ _ _ _ PR).
  Local Notation Res := (Res _ _ _ _ PR).
  Local Notation Clr := (Clr _ _ _ _ PR).
  Local Notation Per := (Per _ _ _ _ PR).
  Local Notation Ev := (Ev _ _ _ _ PR).
  Local Notation Tch := (Tch _ _ _ _ PR).
  Local Notation Cld := (Cld _ _ _ _ PR).
  Local Notation Hlt := (Hlt _ _ _ _ PR).
  Local Notation Wst := (Wst _ _ _ _ PR).
  Local Notation Wfi := (Wfi _ _ _ _ PR).

  Lemma same_notified v s : P s -> P (set_notified v s).
  Proof. apply Same. repeat split. Qed.

  Lemma evict_entries k s k' e : get k' (s_entries (evict k s)) = Some e -> get k' (s_entries s) = Some e.
  Proof. rewrite evict_nf. cbn [s_entries set_evicted set_lost set_entries]. rewrite (kget_del key_eqb KE). destruct (key_eqb k' k); [discriminate|auto]. Qed.

  Lemma sweep_inv now rd order s : (forall l, Permutation (order l) l) -> P s -> P (sweep c now rd order s).
  Proof.
    intros PO HP. unfold sweep. destruct (negb (should_sweep c now rd s)) eqn:SW; [exact HP|].
    assert (P1 : P (set_last_sweep now s)) by (revert HP; apply Same; repeat split).
    set (s0 := set_last_sweep now s) in *.
    set (Q := fun t => P t /\ (forall k e, get k (s_entries t) = Some e -> exists e', get k (s_entries s0) = Some e') /\ (forall k v, In (k, v) (s_meta t) -> has k (s_meta s0) = true) /\ s_store t = s_store s0).
    assert (Q0 : Q s0).
    { split; [exact P1|]. split; [eauto|]. split; [|reflexivity]. intros k v H. apply has_get. destruct (get k (s_meta s0)) eqn:G; [eauto|].
      exfalso. apply (kget_none key_eqb KE) in G. apply G. apply (in_map fst) in H. exact H. }
    assert (QE : (c_idle c <> None \/ c_budget c > 0) -> forall t k, Q t -> has k (s_meta s0) = true -> Q (evict k t)).
    { intros EN t k (A & B & C & D) H. split; [apply (Ev s0); auto; intros e He; exact (B _ _ He)|]. split; [|split].
      - intros k' e He. apply evict_entries in He. eauto.
      - intros k' v Hv. rewrite evict_nf in Hv. cbn in Hv. apply (kdel_in key_eqb KE) in Hv as [Hv _]. eauto.
      - rewrite evict_nf. exact D. }
    assert (Q1 : Q (sweep_idle c now s0)).
    { unfold sweep_idle. destruct (c_idle c) as [idle|] eqn:CI; [|exact Q0].
      assert (KS : forall k, In k (map fst (filter (fun p => now - snd p >? idle) (s_meta s0))) -> has k (s_meta s0) = true).
      { intros k Hk. apply in_map_iff in Hk as ([k' v] & <- & Hk). apply filter_In in Hk as [Hk _]. destruct Q0 as (_ & _ & C & _). exact (C _ _ Hk). }
      revert KS Q0. generalize (map fst (filter (fun p => now - snd p >? idle) (s_meta s0))). intros l. generalize s0 at 2 3. induction l as [|k l IH]; intros t KS Qt; cbn; [exact Qt|].
      apply IH; [intros k' Hk'; apply KS; right; exact Hk'|]. apply QE; [left; congruence|exact Qt|apply KS; left; reflexivity]. }
    set (s1 := sweep_idle c now s0) in *.
    assert (Q2 : P (sweep_cold c now s1) /\ (forall k e, In (k, e) (s_entries (sweep_cold c now s1)) -> In (k, e) (s_entries s1)) /\ s_meta (sweep_cold c now s1) = s_meta s1 /\ s_store (sweep_cold c now s1) = s_store s1).
    { destruct Q1 as (A & B & C & D). split; [apply Cld; [exact Logic.I|exact A]|]. destruct (sweep_cold_nf c now s1) as (keep & lst & _ & -> & _). cbn. split; [|split; reflexivity].
      intros k e H. apply filter_In in H as [H _]. exact H. }
    set (s2 := sweep_cold c now s1) in *.
    assert (Q2' : Q s2).
    { destruct Q1 as (A & B & C & D). destruct Q2 as (A2 & B2 & C2 & D2). split; [exact A2|]. split; [|split; [intros k v H; rewrite C2 in H; eauto|congruence]].
      intros k e H. apply (kget_in key_eqb KE) in H. apply B2 in H. destruct (get k (s_entries s1)) as [e1|] eqn:G1; [exact (B _ _ G1)|].
      exfalso. apply (kget_none key_eqb KE) in G1. apply G1. apply (in_map fst) in H. exact H. }
    destruct ((c_budget c >? 0) && (rd 1%nat >? c_budget c)) eqn:BU; [|apply Q2'].
    apply andb_true_iff in BU as [BU _]. apply Z.gtb_lt in BU.
    set (cands := sort_by_hit _).
    assert (KS : forall k v, In (k, v) cands -> has k (s_meta s0) = true).
    { intros k v H. assert (H' : In (k, v) (s_meta s2)).
      { unfold cands in H. assert (SI : forall l, In (k, v) (sort_by_hit l) -> In (k, v) l).
        { induction l as [|x l IH]; cbn; [auto|]. intros I. assert (II : forall y m, In (k, v) (insert_by_hit y m) -> (k, v) = y \/ In (k, v) m).
          { intros y. induction m as [|q m IHm]; cbn; [intros [W|[]]; auto|]. destruct (snd y <=? snd q); cbn; [intros [W|W]; auto|]. intros [W|W]; [auto|]. apply IHm in W as [W|W]; auto. }
          apply II in I as [I|I]; auto. }
        apply SI in H. apply filter_In in H as [H _]. apply (Permutation_in _ (PO _)). exact H. }
      destruct Q2' as (_ & _ & C & _). exact (C _ _ H'). }
    assert (R : Q (sweep_lru c rd 2 cands s2)).
    { revert KS Q2'. generalize 2%nat. generalize cands. clear cands. intros l. generalize s2. clear Q2 s2. induction l as [|[k v] l IH]; intros t n KS Qt; cbn; [exact Qt|].
      destruct (rd n <=? c_budget c); [exact Qt|]. apply IH; [intros k' v' H; apply (KS k' v'); right; exact H|].
      apply QE; [right; lia|exact Qt|apply (KS k v); left; reflexivity]. }
    apply R.
  Qed.

  Lemma prepare_inv io now reqs : (forall k code, In (k, code) reqs -> Good k code None) -> forall n s, s_halted s = false -> P s -> P (handle_prepare_aot c io now n reqs s).
  Proof.
    induction reqs as [|[k code] reqs IH]; intros G n s HH HP; cbn; [exact HP|]. pose proof (try_admit_cases c (io n) now Aot k code None Explicit s) as H. apply IH; [intros k' code' I; apply G; right; exact I| |].
    - rewrite (admitted_halted _ _ _ _ _ _ _ _ _ H). exact HH.
    - eapply Adm; [apply G; left; reflexivity|reflexivity|exact H|exact HH|exact Logic.I|exact HP].
  Qed.

  Theorem core_act a s s' : fair_action a ->
    (forall x k code, In x (s_cmds s) -> In (k, code) (cmd_codes x) -> Good k code (nid_of x)) ->
    (forall ev, In ev (s_events s) -> ev_code ev <> [] -> Good (ev_key ev) (ev_code ev) None) ->
    act c a s = Some s' -> P s -> P s'.
  Proof.
    intros F GC GE H HP. destruct a; cbn [act] in H.
    - destruct (lookup_decide c busy k code s); assert (E : s' = s' ) by reflexivity; injection H as <-; try exact HP; revert HP; apply Same; repeat split.
    - destruct (nth_error (s_looking s) n); [|discriminate]. injection H as <-. destruct (_ <? _)%nat; revert HP; apply Same; repeat split.
    - injection H as <-. destruct (has k (s_resident s)); revert HP; apply Same; repeat split.
    - destruct (nid_of x); [discriminate|]. destruct (s_halted s); [injection H as <-; exact HP|]. destruct (_ <? _)%nat; [|discriminate].
      injection H as <-. revert HP. apply Same. repeat split.
    - destruct (s_halted s) eqn:E; [injection H as <-; revert HP; apply Same; repeat (split; [reflexivity|]); congruence|]. destruct (_ <? _)%nat; [|discriminate].
      injection H as <-. revert HP. apply Same. repeat split.
    - injection H as <-. revert HP. apply Same. repeat split.
    - destruct (s_halted s) eqn:HH; [discriminate|]. destruct (s_cmds s) as [|x q]; [discriminate|]. injection H as <-.
      assert (HP' : P (set_cmds q s)) by (revert HP; apply Same; repeat split).
      destruct x; cbn [handle].
      + eapply Adm; [| |apply try_admit_cases|exact HH|exact Logic.I|exact HP']; [|discriminate]. apply (GC (CompileJit k code nid)); left; reflexivity.
      + apply prepare_inv; [|exact HH|exact HP']. intros k code I. apply (GC (PrepareAot reqs)); [left; reflexivity|exact I].
      + apply Clr; [exact Logic.I|exact HP'].
      + apply Per; [exact Logic.I|exact HP'].
      + apply Per; [exact Logic.I|]. apply Clr; [exact Logic.I|exact HP'].
      + apply Hlt; [exact Logic.I|exact HP'].
    - destruct (s_halted s) eqn:HH; [discriminate|]. destruct (s_events s) as [|ev q]; [discriminate|]. injection H as <-.
      unfold handle_lookup_observed. destruct (ev_code ev) as [|b code] eqn:EC.
      + destruct (has (ev_key ev) _) eqn:HM.
        * apply Tch; [exact HM|exact Logic.I|]. revert HP. apply Same. repeat split.
        * revert HP. apply Same. repeat split.
      + eapply Adm; [|reflexivity|apply try_admit_cases|exact HH|exact Logic.I|revert HP; apply Same; repeat split]. rewrite <- EC. apply GE; [left; reflexivity|congruence].
    - destruct (s_halted s) eqn:E; [discriminate|]. destruct (nth_error (s_inflight s) n) as [j|] eqn:N; [|discriminate].
      destruct (j_phase j) as [| |oc] eqn:PH; try discriminate. injection H as <-. eapply Res; [exact N|exact PH|apply handle_worker_result_cases|exact E|exact Logic.I|exact HP].
    - destruct (s_halted s); [discriminate|]. injection H as <-. apply sweep_inv; [exact F|exact HP].
    - destruct (nth_error (s_inflight s) n) as [j|] eqn:N; [|discriminate]. destruct (j_phase j) eqn:PH; try discriminate. injection H as <-. apply Wst; auto.
    - destruct (nth_error (s_inflight s) n) as [j|] eqn:N; [|discriminate]. destruct (j_phase j) eqn:PH; try discriminate. injection H as <-. apply Wfi; auto.
  Qed.

  Theorem core_runs l s s' : (forall k code nid, Good k code nid) -> runs c s l s' -> P s -> P s'.
  Proof. intros G. induction 1; [auto|]. intros HP. apply IHruns. eapply core_act; eauto. Qed.
End Principle.

(** ** List helpers. *)
Lemma nth_split {A} n (l : list A) x : nth_error l n = Some x -> l = firstn n l ++ x :: skipn (S n) l.
Proof.
  revert l. induction n as [|n IH]; intros [|y l] H; cbn in *; try discriminate; [congruence|]. f_equal. apply IH. exact H.
Qed.
Lemma del_nth_perm {A} n (l : list A) x : nth_error l n = Some x -> Permutation l (x :: del_nth n l).
Proof. intros H. unfold del_nth. rewrite (nth_split _ _ _ H) at 1. symmetry. apply Permutation_middle. Qed.
Lemma upd_nth_perm {A} n (l : list A) x y : nth_error l n = Some x -> Permutation (upd_nth n y l) (y :: del_nth n l).
Proof. intros H. unfold upd_nth, del_nth. symmetry. apply Permutation_middle. Qed.
Lemma upd_nth_map {A B} (f : A -> B) n (l : list A) x y : nth_error l n = Some x -> f y = f x -> map f (upd_nth n y l) = map f l.
Proof.
  intros H E. unfold upd_nth. rewrite (nth_split _ _ _ H) at 3. rewrite !map_app. cbn. rewrite E. reflexivity.
Qed.
Definition is_queued (j : job) : bool := match j_phase j with Queued => true | _ => false end.
Definition count {A} (f : A -> bool) (l : list A) : nat := length (filter f l).
Global Arguments count : simpl never.
Global Arguments has : simpl never.
Global Arguments del_nth : simpl never.
Global Arguments upd_nth : simpl never.
Global Arguments kset : simpl never.
Global Arguments kdel : simpl never.
Global Arguments kget : simpl never.
Lemma count_cons {A} (f : A -> bool) x l : count f (x :: l) = ((if f x then 1 else 0) + count f l)%nat.
Proof. unfold count. cbn. destruct (f x); reflexivity. Qed.
Lemma count_perm {A} (f : A -> bool) l l' : Permutation l l' -> count f l = count f l'.
Proof.
  unfold count. induction 1; cbn; [reflexivity| | |congruence].
  - destruct (f x); cbn; congruence.
  - destruct (f x), (f y); reflexivity.
Qed.
Lemma count_app {A} (f : A -> bool) l l' : count f (l ++ l') = (count f l + count f l')%nat.
Proof. unfold count. rewrite filter_app, app_length. reflexivity. Qed.

(** ** Counters: jobs in flight and queued, and their limits (C31). *)
Record counters (c : config) (s : state) : Prop := {
  co_pending : s_halted s = false -> s_pending s = length (s_inflight s);
  co_queued : s_halted s = false -> s_queued s = count is_queued (s_inflight s);
  co_maxp : (s_pending s <= c_maxpending c)%nat;
  co_maxq : (s_queued s <= c_workers c * c_qcap c)%nat }.

Lemma counters_pres c : pres c (fun _ _ _ => True) (fun _ => True) (counters c).
Proof.
  split.
  - intros t t' (E1 & E2 & E3 & E4 & E5 & E6 & E7 & E8 & E9 & _) [A B C D]. split; rewrite ?E5, ?E7, ?E8, ?E9; assumption.
  - intros now kd k code nid m t t' _ GO H HA _ [A B C D]. inversion H; subst; rewrite ?notify_nf, ?lose_nf; split; cbn; auto; try lia.
    + intros E. rewrite app_length. cbn. rewrite A by exact E. lia.
    + intros E. rewrite count_app, count_cons. change (count is_queued []) with 0%nat. cbn. rewrite B by exact E. lia.
  - intros now n j o t t' N PH H HH _ [A B C D]. specialize (A HH). specialize (B HH). pose proof (del_nth_perm _ _ _ N) as PM.
    rewrite (Permutation_length PM) in A. rewrite (count_perm _ _ _ PM), count_cons in B. cbn in A. unfold is_queued at 1 in B. rewrite PH in B.
    inversion H; subst; split; cbn; auto; intros; lia.
  - intros t _ [A B C D]. unfold handle_clear_resident. rewrite notify_all_nf. split; cbn; assumption.
  - intros io t _ [A B C D]. unfold handle_clear_persisted. destruct (s_store t); [destruct io|]; split; cbn; assumption.
  - intros s0 t k _ _ _ _ _ _ _ [A B C D]. rewrite evict_nf. split; cbn; assumption.
  - intros k now t _ _ [A B C D]. split; cbn; assumption.
  - intros now t _ [A B C D]. destruct (sweep_cold_nf c now t) as (keep & lst & _ & -> & _). split; cbn; assumption.
  - intros t _ [A B C D]. unfold shutdown. rewrite lose_all_nf. split; cbn; try assumption; discriminate.
  - intros n j t N PH _ [A B C D]. pose proof (del_nth_perm _ _ _ N) as PM. pose proof (upd_nth_perm _ _ _ (with_phase j Running) N) as PU.
    split; cbn; try lia; intros E.
    + rewrite (Permutation_length PU). cbn. rewrite A by exact E. rewrite (Permutation_length PM). reflexivity.
    + rewrite (count_perm _ _ _ PU), B by exact E. rewrite (count_perm _ _ _ PM), !count_cons. unfold is_queued at 1 3. rewrite PH. cbn. lia.
  - intros n j ok t N PH _ [A B C D]. pose proof (del_nth_perm _ _ _ N) as PM. pose proof (upd_nth_perm _ _ _ (with_phase j (Done (outcome_of c (j_kind j) ok))) N) as PU.
    split; cbn; try lia; intros E.
    + rewrite (Permutation_length PU). cbn. rewrite A by exact E. rewrite (Permutation_length PM). reflexivity.
    + rewrite (count_perm _ _ _ PU), B by exact E. rewrite (count_perm _ _ _ PM), !count_cons. unfold is_queued at 1 3. rewrite PH. reflexivity.
Qed.
Lemma counters_inv c l s s' : runs c s l s' -> counters c s -> counters c s'.
Proof. apply (core_runs c _ _ (counters_pres c)). auto. Qed.

(** ** Maps: unique keys, and eviction metadata exactly for the resident keys (C34). *)
Record maps_ok (s : state) : Prop := {
  mo_nr : NoDup (map fst (s_resident s));
  mo_nm : NoDup (map fst (s_meta s));
  mo_ne : NoDup (map fst (s_entries s));
  mo_keys : forall k, has k (s_resident s) = has k (s_meta s) }.

Lemma has_set {V} k k' (v : V) m : has k (set k' v m) = key_eqb k k' || has k m.
Proof. unfold has. rewrite (kget_set key_eqb KE). destruct (key_eqb k k'); reflexivity. Qed.
Lemma has_del {V} k k' (m : list (key * V)) : has k (del k' m) = negb (key_eqb k k') && has k m.
Proof. unfold has. rewrite (kget_del key_eqb KE). destruct (key_eqb k k'); reflexivity. Qed.
Lemma filter_keys_nodup {V} (f : key * V -> bool) l : NoDup (map fst l) -> NoDup (map fst (filter f l)).
Proof.
  induction l as [|x l IH]; cbn; [auto|]. intros N. inversion N; subst. destruct (f x); cbn; [|auto]. constructor; [|auto].
  intros I. apply H1. apply in_map_iff in I as (y & E & I). apply filter_In in I as [I _]. rewrite <- E. apply in_map. exact I.
Qed.

#[local] Hint Resolve mo_nr mo_nm mo_ne mo_keys : core.
Ltac maps := repeat first [apply (kset_nodup key_eqb KE) | apply (kdel_nodup key_eqb KE) | apply filter_keys_nodup]; eauto using NoDup_nil.

Lemma maps_pres c : pres c (fun _ _ _ => True) (fun _ => True) maps_ok.
Proof.
  split.
  - intros t t' (E1 & E2 & E3 & _) [A B C D]. split; rewrite ?E1, ?E2, ?E3; assumption.
  - intros now kd k code nid m t t' _ GO H HA _ M. pose proof M as [A B C D]. inversion H; subst; rewrite ?notify_nf, ?lose_nf; split; cbn; maps.
    intros k'. rewrite !has_set. f_equal. apply D.
  - intros now n j o t t' N PH H HH _ [A B C D]. inversion H; subst; split; cbn; maps; intros k'; rewrite !has_set; f_equal; apply D.
  - intros t _ [A B C D]. unfold handle_clear_resident. rewrite notify_all_nf. split; cbn; maps.
  - intros io t _ M. unfold handle_clear_persisted. destruct (s_store t); [destruct io|]; destruct M; split; cbn; assumption.
  - intros s0 t k _ _ _ _ _ _ _ [A B C D]. rewrite evict_nf. split; cbn; maps. intros k'. rewrite !has_del, D. reflexivity.
  - intros k now t H _ [A B C D]. split; cbn; maps. intros k'. rewrite has_set, D. destruct (key_eqb k' k) eqn:E; [|reflexivity]. apply KE in E. subst. exact H.
  - intros now t _ [A B C D]. destruct (sweep_cold_nf c now t) as (keep & lst & _ & -> & _). split; cbn; maps.
  - intros t _ [A B C D]. unfold shutdown. rewrite lose_all_nf. split; cbn; maps.
  - intros n j t N PH _ [A B C D]. split; cbn; assumption.
  - intros n j ok t N PH _ [A B C D]. split; cbn; assumption.
Qed.
Lemma maps_inv c l s s' : runs c s l s' -> maps_ok s -> maps_ok s'.
Proof. apply (core_runs c _ _ (maps_pres c)). auto. Qed.

(** ** Jobs and entries: a working entry has its job in flight; job identities. *)
Record jobs_ok (s : state) : Prop := {
  jo_ids : NoDup (map j_id (s_inflight s));
  jo_lt : forall j, In j (s_inflight s) -> (j_id j < s_next_job s)%nat /\ (j_gen j <= s_gen s)%nat;
  jo_cold : forall k e, get k (s_entries s) = Some e -> e_phase e = Cold -> e_pend e = [];
  jo_hot : forall k e, get k (s_entries s) = Some e -> 0 <= e_hot e;
  jo_work : forall k e, get k (s_entries s) = Some e -> e_phase e = Working -> exists j, In j (s_inflight s) /\ j_key j = k /\ j_gen j = s_gen s }.

Lemma old_entry_cases k code now s : get k (s_entries s) = Some (old_entry k code now s) \/ (get k (s_entries s) = None /\ old_entry k code now s = mkEntry 0 Cold code now []).
Proof. unfold old_entry. destruct (get k (s_entries s)); auto. Qed.

Lemma in_map_perm {A B} (f : A -> B) l l' : Permutation l l' -> forall x, In x (map f l) <-> In x (map f l').
Proof. intros P x. split; apply Permutation_in; [|symmetry]; apply Permutation_map; exact P. Qed.

Lemma jobs_pres c : pres c (fun _ _ _ => True) (fun _ => True) (fun s => jobs_ok s /\ NoDup (map fst (s_entries s))).
Proof.
  split.
  - intros t t' (E1 & E2 & E3 & E4 & E5 & E6 & E7 & E8 & E9 & E10 & E11 & E12 & E13 & E14) [[A B C D E] N]. rewrite E3. split; [|exact N].
    split; rewrite ?E3, ?E6, ?E7, ?E13; assumption.
  - intros now kd k code nid m t t' _ GO H HA _ [[A B C D E] N].
    assert (O1 : 0 <= e_hot (old_entry k code now t)).
    { destruct (old_entry_cases k code now t) as [G|[G ->]]; [exact (D _ _ G)|cbn; lia]. }
    assert (O2 : e_phase (old_entry k code now t) = Cold -> e_pend (old_entry k code now t) = []).
    { destruct (old_entry_cases k code now t) as [G|[G ->]]; [exact (C _ _ G)|reflexivity]. }
    inversion H; subst; rewrite ?notify_nf, ?lose_nf; (split; [|cbn; maps]); split; cbn; auto;
      try (intros k' e'; rewrite (kget_set key_eqb KE); destruct (key_eqb k' k) eqn:EK; [apply KE in EK; subst k'; intros W; injection W as <-; cbn|eauto]); auto; try lia; try discriminate.
    + exact (D _ _ H0).
    + intros _. exact (E _ _ H0 H1).
    + destruct m; lia.
    + rewrite map_app. cbn. apply Permutation_NoDup with (l := s_next_job t :: map j_id (s_inflight t)); [apply Permutation_cons_append|].
      constructor; [|exact A]. intros I. apply in_map_iff in I as (j & Ej & Ij). apply B in Ij. lia.
    + intros j I. apply in_app_iff in I as [I|[<-|[]]]; cbn; [apply B in I|]; lia.
    + destruct m; lia.
    + intros _. eexists. split; [apply in_app_iff; right; left; reflexivity|]. auto.
    + intros W1 W2. destruct (E _ _ W1 W2) as (j & J1 & J2). exists j. split; [apply in_app_iff; auto|exact J2].
  - intros now n j o t t' Nn PH H HH _ [[A B C D E] N]. pose proof (del_nth_perm _ _ _ Nn) as PM.
    assert (A' : NoDup (map j_id (del_nth n (s_inflight t)))).
    { apply (Permutation_map j_id) in PM. apply (Permutation_NoDup PM) in A. cbn in A. inversion A; assumption. }
    assert (B' : forall x, In x (del_nth n (s_inflight t)) -> In x (s_inflight t)).
    { intros x I. apply (Permutation_in x (Permutation_sym PM)). right. exact I. }
    assert (E' : forall k e, key_eqb k (j_key j) = false -> get k (s_entries t) = Some e -> e_phase e = Working -> exists j', In j' (del_nth n (s_inflight t)) /\ j_key j' = k /\ j_gen j' = s_gen t).
    { intros k e NE G W. destruct (E _ _ G W) as (j' & J1 & J2 & J3). apply (Permutation_in j' PM) in J1 as [<-|J1]; [|eauto].
      rewrite J2 in NE. rewrite (eqb_refl key_eqb KE) in NE. discriminate. }
    inversion H; subst; (split; [|cbn; maps]); split; cbn; auto;
      intros k' e'; rewrite (kget_del key_eqb KE); destruct (key_eqb k' (j_key j)) eqn:EK; try discriminate; eauto.
  - intros t _ [[A B C D E] N]. unfold handle_clear_resident. rewrite notify_all_nf. split; [|cbn; constructor]. split; cbn; auto; try discriminate.
    intros j I. apply B in I. lia.
  - intros io t _ [[A B C D E] N]. unfold handle_clear_persisted. destruct (s_store t); [destruct io|]; (split; [|assumption]); split; cbn; assumption.
  - intros s0 t k _ _ _ _ _ _ _ [[A B C D E] N]. rewrite evict_nf. split; [|cbn; maps]. split; cbn; auto;
      intros k' e'; rewrite (kget_del key_eqb KE); destruct (key_eqb k' k) eqn:EK; try discriminate; eauto.
  - intros k now t H _ [[A B C D E] N]. split; [|exact N]. split; cbn; assumption.
  - intros now t _ [[A B C D E] N]. destruct (sweep_cold_nf c now t) as (keep & lst & _ & -> & _). split; [|cbn; maps].
    split; cbn; auto; intros k e G; apply (filter_get keep k e _ N) in G; eauto.
  - intros t _ [[A B C D E] N]. unfold shutdown. rewrite lose_all_nf. split; [|cbn; constructor]. split; cbn; try discriminate; [constructor|tauto].
  - intros n j t Nn PH _ [[A B C D E] N]. pose proof (del_nth_perm _ _ _ Nn) as PM. pose proof (upd_nth_perm _ _ _ (with_phase j Running) Nn) as PU.
    split; [|exact N]. split; cbn; auto.
    + rewrite (upd_nth_map j_id _ _ j); auto.
    + intros x I. apply (Permutation_in x PU) in I as [<-|I]; cbn; [|apply B, (Permutation_in x (Permutation_sym PM)); right; exact I].
      apply B. apply nth_error_In in Nn. exact Nn.
    + intros k e G W. destruct (E _ _ G W) as (j' & J1 & J2 & J3). apply (Permutation_in j' PM) in J1 as [<-|J1].
      * exists (with_phase j Running). split; [apply (Permutation_in _ (Permutation_sym PU)); left; reflexivity|auto].
      * exists j'. split; [apply (Permutation_in _ (Permutation_sym PU)); right; exact J1|auto].
  - intros n j ok t Nn PH _ [[A B C D E] N]. set (j2 := with_phase j (Done (outcome_of c (j_kind j) ok))). pose proof (del_nth_perm _ _ _ Nn) as PM. pose proof (upd_nth_perm _ _ _ j2 Nn) as PU.
    split; [|exact N]. split; cbn; auto.
    + rewrite (upd_nth_map j_id _ _ j); auto.
    + intros x I. apply (Permutation_in x PU) in I as [<-|I]; cbn; [|apply B, (Permutation_in x (Permutation_sym PM)); right; exact I].
      apply B. apply nth_error_In in Nn. exact Nn.
    + intros k e G W. destruct (E _ _ G W) as (j' & J1 & J2 & J3). apply (Permutation_in j' PM) in J1 as [<-|J1].
      * exists j2. split; [apply (Permutation_in _ (Permutation_sym PU)); left; reflexivity|auto].
      * exists j'. split; [apply (Permutation_in _ (Permutation_sym PU)); right; exact J1|auto].
Qed.
Lemma jobs_inv c l s s' : runs c s l s' -> jobs_ok s /\ NoDup (map fst (s_entries s)) -> jobs_ok s' /\ NoDup (map fst (s_entries s')).
Proof. apply (core_runs c _ _ (jobs_pres c)). auto. Qed.
