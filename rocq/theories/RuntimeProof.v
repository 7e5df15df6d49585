(** Lemmas about the runtime backend model: map laws, case analysis of the handlers, and the invariants
    behind C27-C34 and C36. *)
From Verif Require Import RuntimeModel.
Open Scope Z_scope.

(** ** Maps. *)
Lemma key_eqb_eq a b : key_eqb a b = true <-> a = b.
Proof.
  unfold key_eqb. destruct a as [a1 a2], b as [b1 b2]. cbn. rewrite andb_true_iff, !Z.eqb_eq. split; [intros [-> ->]; reflexivity|intros H; injection H; auto].
Qed.
Lemma akey_eqb_eq a b : akey_eqb a b = true <-> a = b.
Proof.
  unfold akey_eqb. destruct a as [a1 a2], b as [b1 b2]. cbn. rewrite andb_true_iff, key_eqb_eq, Z.eqb_eq. split; [intros [-> ->]; reflexivity|intros H; injection H; auto].
Qed.

Section MapLaws.
  Context {K V : Type} (eqb : K -> K -> bool) (EQ : forall a b, eqb a b = true <-> a = b).
  Implicit Types m : list (K * V).
  Lemma eqb_refl k : eqb k k = true. Proof. apply EQ. reflexivity. Qed.
  Lemma eqb_neq a b : a <> b -> eqb a b = false.
  Proof. intros N. destruct (eqb a b) eqn:E; [apply EQ in E; congruence|reflexivity]. Qed.
  Lemma kdel_in k m x : In x (kdel eqb k m) <-> In x m /\ fst x <> k.
  Proof.
    unfold kdel. rewrite filter_In. destruct (eqb k (fst x)) eqn:E; cbn.
    - apply EQ in E. split; [intros [_ H]; discriminate|intros [_ H]; congruence].
    - split; [intros [H _]; split; [exact H|intros F; rewrite <- F, eqb_refl in E; discriminate]|tauto].
  Qed.
  Lemma kget_del k k' m : kget eqb k (kdel eqb k' m) = if eqb k k' then None else kget eqb k m.
  Proof.
    unfold kdel. induction m as [|[q v] m IH]; cbn; [destruct (eqb k k'); reflexivity|].
    destruct (eqb k' q) eqn:E1; cbn.
    - apply EQ in E1. subst q. rewrite IH. destruct (eqb k k') eqn:E2; reflexivity.
    - rewrite IH. destruct (eqb k q) eqn:E2; [|reflexivity]. apply EQ in E2. subst q.
      rewrite eqb_neq; [reflexivity|]. intros ->. rewrite eqb_refl in E1. discriminate.
  Qed.
  Lemma kget_set k k' v m : kget eqb k (kset eqb k' v m) = if eqb k k' then Some v else kget eqb k m.
  Proof. unfold kset. cbn [kget]. destruct (eqb k k') eqn:E; [reflexivity|]. rewrite kget_del, E. reflexivity. Qed.
  Lemma kget_in k v m : kget eqb k m = Some v -> In (k, v) m.
  Proof.
    induction m as [|[q w] m IH]; cbn; [discriminate|]. destruct (eqb k q) eqn:E; [|auto].
    apply EQ in E. subst. intros H. injection H as ->. auto.
  Qed.
  Lemma kset_in k v m x : In x (kset eqb k v m) <-> x = (k, v) \/ (In x m /\ fst x <> k).
  Proof. unfold kset. cbn. rewrite kdel_in. split; intros [H|H]; auto. Qed.
  Lemma keys_del k m : map fst (kdel eqb k m) = filter (fun q => negb (eqb k q)) (map fst m).
  Proof.
    unfold kdel. induction m as [|[q w] m IH]; cbn; [reflexivity|]. destruct (eqb k q); cbn; [exact IH|]. f_equal. exact IH.
  Qed.
  Lemma kdel_nodup k m : NoDup (map fst m) -> NoDup (map fst (kdel eqb k m)).
  Proof. intros H. rewrite keys_del. apply NoDup_filter. exact H. Qed.
  Lemma kset_nodup k v m : NoDup (map fst m) -> NoDup (map fst (kset eqb k v m)).
  Proof.
    intros H. unfold kset. cbn. constructor; [|apply kdel_nodup; exact H].
    rewrite keys_del, filter_In. intros [_ F]. rewrite eqb_refl in F. discriminate.
  Qed.
  Lemma kdel_set k v m : kdel eqb k (kset eqb k v m) = kdel eqb k m.
  Proof.
    unfold kset, kdel. cbn. rewrite eqb_refl. cbn. induction m as [|[q w] m IH]; cbn; [reflexivity|].
    destruct (eqb k q) eqn:E; cbn; [exact IH|]. rewrite E. cbn. f_equal. exact IH.
  Qed.
  Lemma kset_set k v w m : kset eqb k v (kset eqb k w m) = kset eqb k v m.
  Proof. unfold kset at 1 3. f_equal. apply kdel_set. Qed.
  Lemma kdel_none k m : kget eqb k m = None -> kdel eqb k m = m.
  Proof.
    unfold kdel. induction m as [|[q w] m IH]; cbn; [reflexivity|]. destruct (eqb k q) eqn:E; [discriminate|]. cbn. intros H. f_equal. auto.
  Qed.
  Lemma kget_none k m : kget eqb k m = None <-> ~ In k (map fst m).
  Proof.
    induction m as [|[q w] m IH]; cbn; [tauto|]. destruct (eqb k q) eqn:E.
    - apply EQ in E. subst. split; [discriminate|tauto].
    - rewrite IH. split; [intros H [F|F]; [subst; rewrite eqb_refl in E; discriminate|tauto]|tauto].
  Qed.
  Lemma in_kget k v m : NoDup (map fst m) -> In (k, v) m -> kget eqb k m = Some v.
  Proof.
    induction m as [|[q w] m IH]; cbn; [tauto|]. intros N [H|H].
    - injection H as -> ->. rewrite eqb_refl. reflexivity.
    - inversion N; subst. destruct (eqb k q) eqn:E; [|auto]. apply EQ in E. subst. exfalso. apply H2. apply (in_map fst) in H. exact H.
  Qed.
  Lemma kdel_len k m : (length (kdel eqb k m) <= length m)%nat.
  Proof. unfold kdel. induction m as [|x m IH]; cbn; [lia|]. destruct (negb _); cbn; lia. Qed.
  Lemma kset_len_some k v w m : NoDup (map fst m) -> kget eqb k m = Some w -> length (kset eqb k v m) = length m.
  Proof.
    intros N H. unfold kset. cbn. induction m as [|[q u] m IH]; cbn in *; [discriminate|]. inversion N; subst.
    destruct (eqb k q) eqn:E; cbn.
    - apply EQ in E. subst. f_equal. f_equal. apply kdel_none. apply kget_none. exact H2.
    - f_equal. apply IH; assumption.
  Qed.
  Lemma kset_len_none k v m : kget eqb k m = None -> length (kset eqb k v m) = S (length m).
  Proof. intros H. unfold kset. cbn. f_equal. rewrite kdel_none by exact H. reflexivity. Qed.
  Lemma kset_len k v m : (length (kset eqb k v m) <= S (length m))%nat.
  Proof. unfold kset. cbn. pose proof (kdel_len k m). lia. Qed.
End MapLaws.
Notation KE := key_eqb_eq.
Notation AE := akey_eqb_eq.

Lemma has_get {V} k (m : list (key * V)) : has k m = true <-> exists v, get k m = Some v.
Proof. unfold has. destruct (get k m); split; intros H; eauto; [discriminate|destruct H; discriminate]. Qed.
Lemma has_false {V} k (m : list (key * V)) : has k m = false <-> get k m = None.
Proof. unfold has. destruct (get k m); split; congruence. Qed.

(** ** Normal forms of the notifier helpers. *)
Definition somes (l : list (option nat)) : list nat := flat_map (fun o => match o with Some n => [n] | None => [] end) l.
Lemma somes_app a b : somes (a ++ b) = somes a ++ somes b.
Proof. apply flat_map_app. Qed.
Lemma set_notified_id s : set_notified (s_notified s) s = s. Proof. destruct s; reflexivity. Qed.
Lemma set_lost_id s : set_lost (s_lost s) s = s. Proof. destruct s; reflexivity. Qed.
Lemma notify_nf n s : notify n s = set_notified (somes [n] ++ s_notified s) s.
Proof. destruct n; [reflexivity|symmetry; apply set_notified_id]. Qed.
Lemma lose_nf n s : lose n s = set_lost (somes [n] ++ s_lost s) s.
Proof. destruct n; [reflexivity|symmetry; apply set_lost_id]. Qed.
Lemma notify_all_nf l : forall s, notify_all l s = set_notified (rev (somes l) ++ s_notified s) s.
Proof.
  unfold notify_all. induction l as [|n l IH]; intros s; cbn [fold_left]; [symmetry; apply set_notified_id|].
  rewrite IH. destruct n as [n|]; cbn; [rewrite <- app_assoc|]; reflexivity.
Qed.
Lemma lose_all_nf l : forall s, lose_all l s = set_lost (rev (somes l) ++ s_lost s) s.
Proof.
  unfold lose_all. induction l as [|n l IH]; intros s; cbn [fold_left]; [symmetry; apply set_lost_id|].
  rewrite IH. destruct n as [n|]; cbn; [rewrite <- app_assoc|]; reflexivity.
Qed.

(** ** Case analysis of admission. *)
Definition old_entry (k : key) (code : list Z) (now : Z) (s : state) : entry :=
  match get k (s_entries s) with Some e => e | None => mkEntry 0 Cold code now [] end.

Inductive admitted (c : config) (now : Z) (kd : kind) (k : key) (code : list Z) (nid : option nat) (m : mode) (s : state) : state -> Prop :=
| ad_refused : has k (s_resident s) = true \/ should_compile c code = false -> admitted c now kd k code nid m s (notify nid s)
| ad_full : m = Observed -> get k (s_entries s) = None -> (c_maxpending c * 10 <= length (s_entries s))%nat -> has k (s_resident s) = false ->
    admitted c now kd k code nid m s (lose nid s)
| ad_loaded st f : kd = Aot -> s_store s = Some st -> kget akey_eqb (k, c_aot_opt c) st = Some f -> has k (s_resident s) = false ->
    admitted c now kd k code nid m s (notify nid (insert_resident now k (mkProg k Aot f) s))
| ad_join e : get k (s_entries s) = Some e -> e_phase e = Working -> has k (s_resident s) = false ->
    admitted c now kd k code nid m s (set_entries (set k (mkEntry (e_hot e) Working (e_code e) now (e_pend e ++ [nid])) (s_entries s)) s)
| ad_cold e hot : e = old_entry k code now s -> e_phase e = Cold -> m = Observed -> hot = Z.min (e_hot e + 1) (2 ^ 32 - 1) -> hot < c_hot c ->
    has k (s_resident s) = false -> (get k (s_entries s) = None -> (length (s_entries s) < c_maxpending c * 10)%nat) ->
    admitted c now kd k code nid m s (lose nid (set_entries (set k (mkEntry hot Cold (e_code e) now (e_pend e)) (s_entries s)) s))
| ad_busy e hot : e = old_entry k code now s -> e_phase e = Cold -> hot = match m with Observed => Z.min (e_hot e + 1) (2 ^ 32 - 1) | Explicit => e_hot e end ->
    (c_maxpending c <= s_pending s \/ c_workers c = 0 \/ c_workers c * c_qcap c <= s_queued s)%nat ->
    has k (s_resident s) = false -> (m = Observed -> get k (s_entries s) = None -> (length (s_entries s) < c_maxpending c * 10)%nat) ->
    admitted c now kd k code nid m s (notify nid (set_entries (set k (mkEntry hot Cold (e_code e) now (e_pend e)) (s_entries s)) s))
| ad_dispatch e hot : e = old_entry k code now s -> e_phase e = Cold -> hot = match m with Observed => Z.min (e_hot e + 1) (2 ^ 32 - 1) | Explicit => e_hot e end ->
    (m = Observed -> c_hot c <= hot) -> (s_pending s < c_maxpending c)%nat -> (s_queued s < c_workers c * c_qcap c)%nat ->
    has k (s_resident s) = false -> (m = Observed -> get k (s_entries s) = None -> (length (s_entries s) < c_maxpending c * 10)%nat) ->
    admitted c now kd k code nid m s
      (set_entries (set k (mkEntry hot Working (e_code e) now (e_pend e)) (s_entries s))
        (set_next_job (S (s_next_job s)) (set_pending (S (s_pending s)) (set_dispatched (S (s_dispatched s))
          (set_inflight (s_inflight s ++ [mkJob (s_next_job s) kd k (e_code e) nid (s_gen s) Queued]) (set_queued (S (s_queued s)) s)))))).

Lemma try_admit_cases c io now kd k code nid m s : admitted c now kd k code nid m s (try_admit c io now kd k code nid m s).
Proof.
  unfold try_admit. destruct (has k (s_resident s)) eqn:HR; [apply ad_refused; auto|].
  destruct (should_compile c code) eqn:SC; cbn [negb]; [|apply ad_refused; auto].
  destruct (match m with Observed => negb (has k (s_entries s)) && (c_maxpending c * 10 <=? length (s_entries s))%nat | Explicit => false end) eqn:FU.
  { destruct m; [|discriminate]. apply andb_true_iff in FU as [F1 F2]. apply negb_true_iff, has_false in F1. apply Nat.leb_le in F2.
    apply ad_full; auto. }
  assert (Room : m = Observed -> get k (s_entries s) = None -> (length (s_entries s) < c_maxpending c * 10)%nat).
  { intros -> G. apply has_false in G. rewrite G in FU. cbn in FU. apply Nat.leb_gt in FU. exact FU. }
  clear FU.
  assert (Main : admitted c now kd k code nid m s
    (admit_entry c now kd k nid m (match get k (s_entries s) with Some e => e | None => mkEntry 0 Cold code now [] end) s)).
  { fold (old_entry k code now s). unfold admit_entry. destruct (e_phase (old_entry k code now s)) eqn:PH.
    - set (hot := match m with Observed => Z.min _ _ | Explicit => _ end).
      destruct (match m with Observed => hot <? c_hot c | Explicit => false end) eqn:HT.
      { destruct m; [|discriminate]. apply Z.ltb_lt in HT. eapply ad_cold; eauto. }
      cbn [s_pending set_entries]. destruct (Nat.leb_spec (c_maxpending c) (s_pending s)) as [B|B].
      { eapply ad_busy; eauto. }
      unfold try_send. cbn [s_queued s_inflight set_entries].
      destruct (Nat.eqb_spec (c_workers c) 0) as [W|W]; [eapply ad_busy; eauto|].
      destruct (Nat.leb_spec (c_workers c * c_qcap c) (s_queued s)) as [Q|Q]; [eapply ad_busy; eauto|].
      cbn [s_entries s_next_job s_gen s_pending s_dispatched set_inflight set_queued set_entries set_pending set_next_job set_dispatched].
      rewrite (kset_set key_eqb KE).
      replace (set_entries _ _) with
        (set_entries (set k (mkEntry hot Working (e_code (old_entry k code now s)) now (e_pend (old_entry k code now s))) (s_entries s))
        (set_next_job (S (s_next_job s)) (set_pending (S (s_pending s)) (set_dispatched (S (s_dispatched s))
          (set_inflight (s_inflight s ++ [mkJob (s_next_job s) kd k (e_code (old_entry k code now s)) nid (s_gen s) Queued]) (set_queued (S (s_queued s)) s))))))
        by reflexivity.
      eapply ad_dispatch; eauto. intros ->. apply Z.ltb_ge in HT. exact HT.
    - destruct (get k (s_entries s)) as [e|] eqn:G; [|unfold old_entry in PH; rewrite G in PH; discriminate].
      unfold old_entry in *. rewrite G in *. eapply ad_join; eauto. }
  destruct kd; [exact Main|]. unfold try_load_persisted_aot. destruct (s_store s) as [st|] eqn:ST; [|exact Main].
  destruct (kget akey_eqb (k, c_aot_opt c) st) as [f|] eqn:F; [|exact Main]. destruct io; [|exact Main].
  eapply ad_loaded; eauto.
Qed.

(** ** Case analysis of worker results. *)
Definition result_base (j : job) (s : state) : state :=
  set_notified (rev (somes (pend_of (j_key j) s)) ++ somes [j_nid j] ++ s_notified s)
    (set_entries (del (j_key j) (s_entries s)) (set_pending (s_pending s - 1)%nat s)).

Inductive resulted (c : config) (now : Z) (j : job) (o : outcome) (s : state) : state -> Prop :=
| re_stale : j_gen j <> s_gen s -> resulted c now j o s (result_base j s)
| re_failed : j_gen j = s_gen s -> resulted c now j o s (set_failed (S (s_failed s)) (result_base j s))
| re_stored st : j_gen j = s_gen s -> o = OAot -> s_store s = Some st ->
    resulted c now j o s (set_failed (S (s_failed s)) (set_store (Some (kset akey_eqb (j_key j, c_aot_opt c) (job_func j) st)) (result_base j s)))
| re_aot st : j_gen j = s_gen s -> o = OAot -> s_store s = Some st ->
    resulted c now j o s (set_succeeded (S (s_succeeded s)) (insert_resident now (j_key j) (mkProg (j_key j) Aot (job_func j))
      (set_store (Some (kset akey_eqb (j_key j, c_aot_opt c) (job_func j) st)) (result_base j s))))
| re_jit : j_gen j = s_gen s -> o = OJit \/ o = OObject ->
    resulted c now j o s (set_succeeded (S (s_succeeded s)) (insert_resident now (j_key j) (mkProg (j_key j) Jit (job_func j)) (result_base j s))).

Lemma entries_remove_nf k s : entries_remove k s = set_lost (rev (somes (pend_of k s)) ++ s_lost s) (set_entries (del k (s_entries s)) s).
Proof. unfold entries_remove. rewrite lose_all_nf. reflexivity. Qed.

Lemma set_entries_id s : set_entries (s_entries s) s = s. Proof. destruct s; reflexivity. Qed.

Lemma handle_worker_result_cases c io now j o s : resulted c now j o s (handle_worker_result c io now j o s).
Proof.
  unfold handle_worker_result. cbn [s_entries set_pending].
  set (s0 := set_pending (s_pending s - 1)%nat s).
  assert (P : pend_of (j_key j) s0 = pend_of (j_key j) s) by reflexivity. rewrite P. clear P.
  set (ent := match get (j_key j) (s_entries s) with
              | Some e => set (j_key j) (mkEntry (e_hot e) (e_phase e) (e_code e) (e_seen e) []) (s_entries s)
              | None => s_entries s end).
  assert (E1 : match get (j_key j) (s_entries s) with
           | Some e => set_entries (set (j_key j) (mkEntry (e_hot e) (e_phase e) (e_code e) (e_seen e) []) (s_entries s)) s0
           | None => s0 end = set_entries ent s0).
  { unfold ent. destruct (get (j_key j) (s_entries s)); [reflexivity|]. exact (eq_sym (set_entries_id s0)). }
  rewrite E1. clear E1.
  assert (D : del (j_key j) ent = del (j_key j) (s_entries s)).
  { unfold ent. destruct (get (j_key j) (s_entries s)); [apply (kdel_set key_eqb KE)|reflexivity]. }
  assert (PE : forall t, s_entries t = ent -> pend_of (j_key j) t = []).
  { intros t Ht. unfold pend_of. rewrite Ht. unfold ent. destruct (get (j_key j) (s_entries s)) eqn:G.
    - rewrite (kget_set key_eqb KE), (eqb_refl key_eqb KE). reflexivity.
    - rewrite G. reflexivity. }
  assert (RM : forall t, s_entries t = ent -> entries_remove (j_key j) t = set_entries (del (j_key j) (s_entries s)) t).
  { intros t Ht. unfold entries_remove. rewrite (PE t Ht). cbn. rewrite Ht, D. reflexivity. }
  cbn [s_gen set_entries set_pending s0].
  destruct (Nat.eqb_spec (j_gen j) (s_gen s)) as [G|G]; cbn [negb].
  2:{ rewrite (RM (set_entries ent s0)) by reflexivity. rewrite notify_all_nf, notify_nf. apply re_stale. exact G. }
  destruct o.
  - rewrite RM by reflexivity. rewrite notify_all_nf, notify_nf. apply re_jit; auto.
  - unfold handle_aot_success. cbn [s_store set_entries set_pending s0]. destruct (s_store s) as [st|] eqn:ST.
    2:{ rewrite (RM (set_entries ent s0)) by reflexivity. rewrite notify_all_nf, notify_nf. apply re_failed. exact G. }
    destruct (io 0%nat); [|rewrite (RM (set_entries ent s0)) by reflexivity; rewrite notify_all_nf, notify_nf; apply re_failed; exact G].
    rewrite (kget_set akey_eqb AE), (eqb_refl akey_eqb AE).
    destruct (io 1%nat); rewrite RM by reflexivity; rewrite notify_all_nf, notify_nf.
    + eapply re_aot; eauto.
    + eapply re_stored; eauto.
  - destruct (io 2%nat); rewrite RM by reflexivity; rewrite notify_all_nf, notify_nf; [apply re_jit; auto|apply re_failed; exact G].
  - rewrite RM by reflexivity. rewrite notify_all_nf, notify_nf. apply re_failed. exact G.
Qed.
