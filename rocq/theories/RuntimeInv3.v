(** Notifiers of synchronous callers: each is in exactly one place (C30), and work always terminates. *)
From Verif Require Import RuntimeModel RuntimeSpec RuntimeProof RuntimeInv RuntimeInv2.
Open Scope Z_scope.

(** ** Counting. *)
Definition cnt (n : nat) (l : list nat) : nat := count_occ Nat.eq_dec l n.
Lemma cnt_app n a b : cnt n (a ++ b) = (cnt n a + cnt n b)%nat. Proof. apply count_occ_app. Qed.
Lemma cnt_perm n a b : Permutation a b -> cnt n a = cnt n b.
Proof. intros P. apply (Permutation_count_occ Nat.eq_dec). exact P. Qed.
Lemma cnt_rev n a : cnt n (rev a) = cnt n a. Proof. apply cnt_perm. symmetry. apply Permutation_rev. Qed.
Lemma cnt_nil n : cnt n [] = 0%nat. Proof. reflexivity. Qed.
Lemma somes_app a b : somes (a ++ b) = somes a ++ somes b.
Proof. induction a as [|[x|] a IH]; cbn; [reflexivity|f_equal; exact IH|exact IH]. Qed.
Lemma somes_perm a b : Permutation a b -> Permutation (somes a) (somes b).
Proof.
  induction 1 as [|x a b P IH|x y l|a b d P1 IH1 P2 IH2]; cbn.
  - constructor.
  - destruct x; [constructor|]; exact IH.
  - destruct x, y; try reflexivity; try apply perm_swap.
  - eapply Permutation_trans; eauto.
Qed.
#[global] Arguments cnt : simpl never.
#[local] Arguments Nat.ltb : simpl never.

Definition jids (s : state) : list nat := somes (map j_nid (s_inflight s)).
Definition pids (es : list (key * entry)) : list nat := somes (flat_map (fun p => e_pend (snd p)) es).
Definition cids (l : list cmd) : list nat := somes (map nid_of l).
#[global] Arguments pids : simpl never.
#[global] Arguments cids : simpl never.
Definition weight (n : nat) (s : state) : nat := (cnt n (jids s) + cnt n (pids (s_entries s)) + cnt n (s_notified s) + cnt n (s_lost s))%nat.

Lemma pids_cons p es : pids (p :: es) = somes (e_pend (snd p)) ++ pids es.
Proof. unfold pids. cbn. apply somes_app. Qed.
Lemma del_cons {V} k k' (e : V) l : del k ((k', e) :: l) = if key_eqb k k' then del k l else (k', e) :: del k l.
Proof. unfold kdel. cbn. destruct (key_eqb k k'); reflexivity. Qed.
Lemma get_cons {V} k k' (e : V) l : get k ((k', e) :: l) = if key_eqb k k' then Some e else get k l.
Proof. reflexivity. Qed.
Lemma pids_del n k s : NoDup (map fst (s_entries s)) -> (cnt n (pids (del k (s_entries s))) + cnt n (somes (pend_of k s)) = cnt n (pids (s_entries s)))%nat.
Proof.
  unfold pend_of. generalize (s_entries s). induction l as [|[k' e] l IH]; intros N; [reflexivity|].
  cbn [map fst] in N. inversion N as [|x y N1 N2]; subst. specialize (IH N2). rewrite del_cons, get_cons. destruct (key_eqb k k') eqn:E.
  - apply KE in E. subst k'. rewrite pids_cons, cnt_app. cbn [snd].
    assert (W : get k l = None) by (apply (kget_none key_eqb KE); exact N1). rewrite W in IH. cbn [somes] in IH. rewrite cnt_nil in IH. lia.
  - rewrite !pids_cons, !cnt_app. lia.
Qed.
Lemma pids_set n k e es : cnt n (pids (set k e es)) = (cnt n (somes (e_pend e)) + cnt n (pids (del k es)))%nat.
Proof. unfold kset. rewrite pids_cons, cnt_app. reflexivity. Qed.
Lemma pend_get k e s : get k (s_entries s) = Some e -> pend_of k s = e_pend e.
Proof. unfold pend_of. intros ->. reflexivity. Qed.

Lemma weight_admitted n c now kd k code nid m s s' : admitted c now kd k code nid m s s' -> NoDup (map fst (s_entries s)) ->
  weight n s' = (weight n s + cnt n (somes [nid]))%nat.
Proof.
  intros H N. assert (PD := pids_del n k s N).
  assert (OE : pend_of k s = e_pend (old_entry k code now s)).
  { destruct (old_entry_cases k code now s) as [G|[G ->]]; [apply pend_get; exact G|]. unfold pend_of. rewrite G. reflexivity. }
  inversion H; subst; rewrite ?notify_nf, ?lose_nf; unfold weight, jids; cbn [s_inflight s_entries s_notified s_lost set_notified set_lost set_entries set_next_job set_pending set_dispatched set_inflight set_queued insert_resident set_meta set_resident];
    rewrite ?pids_set, ?cnt_app, ?map_app, ?somes_app, ?cnt_app; cbn [e_pend map j_nid];
    rewrite ?somes_app, ?cnt_app, <- ?OE; try lia.
  rewrite (pend_get _ _ _ H0) in PD. lia.
Qed.

Lemma weight_resulted n c now i j o s s' : nth_error (s_inflight s) i = Some j -> resulted c now j o (set_inflight (del_nth i (s_inflight s)) s) s' -> NoDup (map fst (s_entries s)) ->
  weight n s' = weight n s.
Proof.
  intros N H ND. assert (PD := pids_del n (j_key j) s ND).
  assert (PM : cnt n (jids s) = (cnt n (somes [j_nid j]) + cnt n (somes (map j_nid (del_nth i (s_inflight s)))))%nat).
  { unfold jids. rewrite (cnt_perm n _ _ (somes_perm _ _ (Permutation_map j_nid (del_nth_perm _ _ _ N)))). cbn [map].
    change (j_nid j :: ?l) with ([j_nid j] ++ l). rewrite somes_app, cnt_app. reflexivity. }
  inversion H; subst; unfold weight; rewrite PM; unfold jids, result_base;
    cbn [s_inflight s_entries s_notified s_lost set_notified set_lost set_entries set_pending set_inflight insert_resident set_meta set_resident set_succeeded set_failed set_store];
    rewrite ?cnt_app, ?cnt_rev; change (pend_of (j_key j) (set_inflight (del_nth i (s_inflight s)) s)) with (pend_of (j_key j) s); lia.
Qed.

Lemma weight_clear n s : weight n (handle_clear_resident s) = weight n s.
Proof.
  unfold handle_clear_resident. rewrite notify_all_nf. unfold weight, jids.
  cbn [s_inflight s_entries s_notified s_lost set_notified set_gen set_g_discarded set_events set_entries set_meta set_resident]. rewrite cnt_app, cnt_rev.
  change (somes (flat_map _ (s_entries s))) with (pids (s_entries s)). change (pids []) with (@nil nat). rewrite cnt_nil. lia.
Qed.
Lemma weight_evict n k s : NoDup (map fst (s_entries s)) -> weight n (evict k s) = weight n s.
Proof.
  intros N. assert (PD := pids_del n k s N). rewrite evict_nf. unfold weight, jids.
  cbn [s_inflight s_entries s_notified s_lost set_evicted set_lost set_entries set_meta set_resident]. rewrite cnt_app, cnt_rev. lia.
Qed.
Lemma pids_filter n f es : (cnt n (pids (filter f es)) + cnt n (pids (filter (fun p => negb (f p)) es)) = cnt n (pids es))%nat.
Proof. induction es as [|p es IH]; [reflexivity|]. cbn. destruct (f p); cbn; rewrite !pids_cons, !cnt_app; lia. Qed.
Lemma weight_cold n c now s : weight n (sweep_cold c now s) = weight n s.
Proof.
  destruct (sweep_cold_nf c now s) as (keep & lst & _ & -> & ->). assert (PF := pids_filter n keep (s_entries s)). unfold weight, jids.
  cbn [s_inflight s_entries s_notified s_lost set_lost set_entries]. rewrite cnt_app, cnt_rev.
  change (somes (flat_map _ ?l)) with (pids l). lia.
Qed.
Lemma nodup_evict k s : NoDup (map fst (s_entries s)) -> NoDup (map fst (s_entries (evict k s))).
Proof. intros N. rewrite evict_nf. cbn. maps. Qed.
Lemma weight_evicts n l : forall s, NoDup (map fst (s_entries s)) ->
  NoDup (map fst (s_entries (fold_left (fun s k => evict k s) l s))) /\ weight n (fold_left (fun s k => evict k s) l s) = weight n s.
Proof.
  induction l as [|k l IH]; intros s N; cbn; [auto|]. destruct (IH (evict k s) (nodup_evict k s N)) as [A B]. split; [exact A|]. rewrite B. apply weight_evict. exact N.
Qed.
Lemma weight_lru n c rd l : forall i s, NoDup (map fst (s_entries s)) -> weight n (sweep_lru c rd i l s) = weight n s.
Proof.
  induction l as [|[k v] l IH]; intros i s N; cbn; [reflexivity|]. destruct (rd i <=? c_budget c); [reflexivity|]. rewrite IH by (apply nodup_evict; exact N). apply weight_evict. exact N.
Qed.
Lemma weight_sweep n c now rd order s : NoDup (map fst (s_entries s)) -> weight n (sweep c now rd order s) = weight n s.
Proof.
  intros N. unfold sweep. destruct (negb _); [reflexivity|]. set (s0 := set_last_sweep now s).
  assert (A : NoDup (map fst (s_entries (sweep_idle c now s0))) /\ weight n (sweep_idle c now s0) = weight n s).
  { unfold sweep_idle. destruct (c_idle c); [|auto]. destruct (weight_evicts n (map fst (filter (fun p => now - snd p >? z) (s_meta s0))) s0 N) as [A B]. auto. }
  destruct A as [A B]. assert (D : weight n (sweep_cold c now (sweep_idle c now s0)) = weight n s) by (rewrite weight_cold; exact B).
  destruct (_ && _); [|exact D]. rewrite weight_lru; [exact D|].
  destruct (sweep_cold_nf c now (sweep_idle c now s0)) as (keep & lst & _ & -> & _). cbn. apply filter_keys_nodup. exact A.
Qed.
Lemma nodup_admitted c now kd k code nid m s s' : admitted c now kd k code nid m s s' -> NoDup (map fst (s_entries s)) -> NoDup (map fst (s_entries s')).
Proof. intros H N. inversion H; subst; rewrite ?notify_nf, ?lose_nf; cbn; auto; maps. Qed.
Lemma weight_prepare n c io now reqs : forall i s, NoDup (map fst (s_entries s)) -> weight n (handle_prepare_aot c io now i reqs s) = weight n s.
Proof.
  induction reqs as [|[k code] reqs IH]; intros i s N; cbn; [reflexivity|].
  pose proof (try_admit_cases c (io i) now Aot k code None Explicit s) as H. rewrite IH by (eapply nodup_admitted; eauto).
  rewrite (weight_admitted n _ _ _ _ _ _ _ _ _ H N). cbn. rewrite cnt_nil. lia.
Qed.

(** ** The frame of each step: commands, requests. *)
Definition total (n : nat) (s : state) : nat := (cnt n (cids (s_cmds s)) + weight n s)%nat.
Definition conserved (s : state) : Prop := forall n, total n s = (if (n <? s_next_sync s)%nat then 1 else 0)%nat.

Lemma cids_app a b : cids (a ++ b) = cids a ++ cids b.
Proof. unfold cids. rewrite map_app. apply somes_app. Qed.

Lemma ind_S n m : (if (n <? S m)%nat then 1 else 0)%nat = ((if (n <? m)%nat then 1 else 0) + (if Nat.eq_dec m n then 1 else 0))%nat.
Proof. destruct (Nat.ltb_spec n (S m)), (Nat.ltb_spec n m), (Nat.eq_dec m n); lia. Qed.

Lemma conserved_act c a s s' : act c a s = Some s' -> NoDup (map fst (s_entries s)) -> conserved s -> conserved s'.
Proof.
  intros H N C n. specialize (C n). destruct a; cbn [act] in H.
  - destruct (lookup_decide c busy k code s); injection H as <-; exact C.
  - destruct (nth_error (s_looking s) n0); [|discriminate]. injection H as <-. destruct (length (s_events s) <? c_cap c)%nat; exact C.
  - injection H as <-. destruct (has k (s_resident s)); exact C.
  - destruct (nid_of x) eqn:NX; [discriminate|]. destruct (s_halted s); [injection H as <-; exact C|]. destruct (length (s_cmds s) <? c_cap c)%nat; [|discriminate].
    injection H as <-. unfold total in *. cbn [s_cmds set_cmds s_next_sync set_supplied]. rewrite cids_app, cnt_app. unfold cids at 2. cbn. rewrite NX. cbn. rewrite cnt_nil.
    change (weight n (set_cmds _ _)) with (weight n s). lia.
  - destruct (s_halted s) eqn:E.
    + injection H as <-. unfold total, weight in *. cbn [s_cmds s_next_sync s_inflight s_entries s_notified s_lost jids set_lost set_next_sync set_requests].
      change (jids (set_lost _ _)) with (jids s). change (s_next_sync s :: s_lost s) with ([s_next_sync s] ++ s_lost s). rewrite cnt_app. unfold cnt at 5. cbn [count_occ].
      rewrite ind_S. destruct (Nat.eq_dec (s_next_sync s) n); lia.
    + destruct (length (s_cmds s) <? c_cap c)%nat; [|discriminate]. injection H as <-. unfold total in *. cbn [s_cmds s_next_sync set_cmds set_next_sync]. rewrite cids_app, cnt_app.
      change (weight n (set_cmds _ _)) with (weight n s). unfold cids at 2. cbn [map nid_of]. change (somes [Some (s_next_sync s)]) with [s_next_sync s]. unfold cnt at 2. cbn [count_occ].
      rewrite ind_S. destruct (Nat.eq_dec (s_next_sync s) n); lia.
  - injection H as <-. exact C.
  - destruct (s_halted s); [discriminate|]. destruct (s_cmds s) as [|x q] eqn:Q; [discriminate|]. injection H as <-.
    unfold total in C. rewrite Q in C. change (x :: q) with ([x] ++ q) in C. rewrite cids_app, cnt_app in C. unfold cids in C at 1. cbn [map] in C.
    destruct x; cbn [handle nid_of] in *.
    + pose proof (try_admit_cases c (o_io o 0%nat) (o_now o) (if c_aot c then Aot else Jit) k code nid Explicit (set_cmds q s)) as H.
      pose proof (weight_admitted n _ _ _ _ _ _ _ _ _ H N) as W. change (weight n (set_cmds q s)) with (weight n s) in W. unfold total. rewrite W.
      destruct (admitted_frame _ _ _ _ _ _ _ _ _ H) as (F1 & _ & _ & _ & _ & _ & _ & _ & _ & _ & _ & _ & F2 & _). rewrite F1, F2. cbn [s_cmds s_next_sync set_cmds]. lia.
    + destruct (prepare_frame c (o_io o) (o_now o) reqs 0 (set_cmds q s)) as (F1 & _ & _ & _ & _ & _ & _ & _ & _ & _ & _ & _ & F2 & _).
      unfold total. rewrite F1, F2, weight_prepare by exact N. cbn [s_cmds s_next_sync set_cmds]. change (weight n (set_cmds q s)) with (weight n s). cbn in C. rewrite cnt_nil in C. lia.
    + unfold total. rewrite weight_clear. unfold handle_clear_resident. rewrite notify_all_nf. cbn in C. rewrite cnt_nil in C. exact C.
    + cbn in C. rewrite cnt_nil in C. unfold handle_clear_persisted. cbn. destruct (s_store s); [destruct (o_io o 0%nat)|]; exact C.
    + cbn in C. rewrite cnt_nil in C.
      assert (W : total n (handle_clear_resident (set_cmds q s)) = (if (n <? s_next_sync s)%nat then 1 else 0)%nat).
      { unfold total. rewrite weight_clear. unfold handle_clear_resident. rewrite notify_all_nf. exact C. }
      assert (W2 : s_next_sync (handle_clear_resident (set_cmds q s)) = s_next_sync s) by (unfold handle_clear_resident; rewrite notify_all_nf; reflexivity).
      unfold handle_clear_persisted. destruct (s_store _); [destruct (o_io o 0%nat)|]; try (rewrite W2; exact W).
      change (total n (handle_clear_resident (set_cmds q s)) = (if (n <? s_next_sync (handle_clear_resident (set_cmds q s)))%nat then 1 else 0)%nat). rewrite W2. exact W.
    + cbn in C. rewrite cnt_nil in C. unfold shutdown. rewrite lose_all_nf. unfold total, weight, jids in *.
      cbn [s_cmds s_next_sync s_inflight s_entries s_notified s_lost set_lost set_halted set_cmds set_inflight set_entries map] in *.
      change (pids []) with (@nil nat). change (cids []) with (@nil nat). change (somes []) with (@nil nat). rewrite cnt_app, cnt_rev, !somes_app, !cnt_app, !cnt_nil.
      change (somes (flat_map _ (s_entries s))) with (pids (s_entries s)). change (somes (map nid_of q)) with (cids q). lia.
  - destruct (s_halted s); [discriminate|]. destruct (s_events s) as [|ev q] eqn:Q; [discriminate|]. injection H as <-. unfold handle_lookup_observed. destruct (ev_code ev) eqn:EC.
    + destruct (has (ev_key ev) _); exact C.
    + match goal with |- context [try_admit _ _ _ _ _ _ _ _ ?t0] => set (t := t0) end.
      pose proof (try_admit_cases c (o_io o 0%nat) (o_now o) (if c_aot c then Aot else Jit) (ev_key ev) (z :: l) None Observed t) as H.
      pose proof (weight_admitted n _ _ _ _ _ _ _ _ _ H N) as W. change (weight n t) with (weight n s) in W. unfold total. rewrite W.
      destruct (admitted_frame _ _ _ _ _ _ _ _ _ H) as (F1 & _ & _ & _ & _ & _ & _ & _ & _ & _ & _ & _ & F2 & _). rewrite F1, F2. cbn [somes]. cbn. rewrite cnt_nil. unfold total in C. rewrite <- C. lia.
  - destruct (s_halted s); [discriminate|]. destruct (nth_error (s_inflight s) n0) as [j|] eqn:NE; [|discriminate]. destruct (j_phase j); try discriminate. injection H as <-.
    pose proof (handle_worker_result_cases c (o_io o) (o_now o) j o0 (set_inflight (del_nth n0 (s_inflight s)) s)) as H.
    unfold total. rewrite (weight_resulted n _ _ _ _ _ _ _ NE H N). destruct (resulted_frame _ _ _ _ _ _ H) as (F1 & _ & _ & _ & _ & _ & _ & _ & _ & _ & _ & _ & F2 & _). rewrite F1, F2. exact C.
  - destruct (s_halted s); [discriminate|]. injection H as <-. unfold total. rewrite weight_sweep by exact N.
    destruct (sweep_frame c now rd order s) as (F1 & _ & _ & _ & _ & _ & _ & _ & _ & _ & _ & _ & F2 & _). rewrite F1, F2. exact C.
  - destruct (nth_error (s_inflight s) n0) as [j|] eqn:NE; [|discriminate]. destruct (j_phase j); try discriminate. injection H as <-.
    unfold total, weight, jids in *. cbn [s_cmds s_next_sync s_inflight s_entries s_notified s_lost set_inflight set_queued]. rewrite (upd_nth_map j_nid _ _ j) by auto. exact C.
  - destruct (nth_error (s_inflight s) n0) as [j|] eqn:NE; [|discriminate]. destruct (j_phase j); try discriminate. injection H as <-.
    unfold total, weight, jids in *. cbn [s_cmds s_next_sync s_inflight s_entries s_notified s_lost set_inflight set_queued]. rewrite (upd_nth_map j_nid _ _ j) by auto. exact C.
Qed.

Lemma jobs_act c a s s' : fair_action a -> act c a s = Some s' -> jobs_ok s /\ NoDup (map fst (s_entries s)) -> jobs_ok s' /\ NoDup (map fst (s_entries s')).
Proof. intros F H. revert H. apply (core_act c _ _ (jobs_pres c)); auto. Qed.

Lemma conserved_inv c l s s' : runs c s l s' -> jobs_ok s /\ NoDup (map fst (s_entries s)) -> conserved s -> conserved s'.
Proof.
  induction 1 as [|s a s1 l s2 F H R IH]; intros J C; [exact C|]. apply IH.
  - eapply jobs_act; eauto.
  - eapply conserved_act; eauto. apply J.
Qed.

Lemma waiting_eq s : waiting s = cids (s_cmds s) ++ jids s ++ pids (s_entries s). Proof. reflexivity. Qed.
Lemma cnt_seq n m : cnt n (seq 0 m) = (if (n <? m)%nat then 1 else 0)%nat.
Proof.
  destruct (Nat.ltb_spec n m) as [L|L].
  - pose proof (seq_NoDup m 0) as ND. rewrite (NoDup_count_occ Nat.eq_dec) in ND. specialize (ND n).
    assert (I : In n (seq 0 m)) by (apply in_seq; lia). apply (count_occ_In Nat.eq_dec) in I. unfold cnt. lia.
  - unfold cnt. apply count_occ_not_In. intros I. apply in_seq in I. lia.
Qed.
Lemma conserved_perm s : conserved s -> Permutation (waiting s ++ s_notified s ++ s_lost s) (seq 0 (s_next_sync s)).
Proof.
  intros C. apply (Permutation_count_occ Nat.eq_dec). intros n. change (cnt n (waiting s ++ s_notified s ++ s_lost s) = cnt n (seq 0 (s_next_sync s))).
  rewrite cnt_seq, <- (C n). rewrite waiting_eq. unfold total, weight. rewrite !cnt_app. lia.
Qed.
