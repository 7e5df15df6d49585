(** What a sweep evicts (C34) and the accounting of lookups (C36). *)
From Verif Require Import RuntimeModel RuntimeSpec RuntimeProof RuntimeInv RuntimeInv2 RuntimeInv3 RuntimeInv4 RuntimeInv5.
From Coq Require Import Sorted.
Open Scope Z_scope.

(** ** Sweep. *)
Lemma evict_resident k s k' : get k' (s_resident (evict k s)) = if key_eqb k' k then None else get k' (s_resident s).
Proof. rewrite evict_nf. cbn. apply (kget_del key_eqb KE). Qed.
Lemma evict_meta k s k' : get k' (s_meta (evict k s)) = if key_eqb k' k then None else get k' (s_meta s).
Proof. rewrite evict_nf. cbn. apply (kget_del key_eqb KE). Qed.
Lemma memk_in k l : memk k l = true <-> In k l.
Proof.
  unfold memk. rewrite existsb_exists. split.
  - intros (x & I & E). apply KE in E. subst. exact I.
  - intros I. exists k. split; [exact I|]. apply KE. reflexivity.
Qed.
Lemma evicts_resident l : forall s k, get k (s_resident (fold_left (fun s k => evict k s) l s)) = (if memk k l then None else get k (s_resident s)) /\
  get k (s_meta (fold_left (fun s k => evict k s) l s)) = (if memk k l then None else get k (s_meta s)) /\
  s_evicted (fold_left (fun s k => evict k s) l s) = (length l + s_evicted s)%nat.
Proof.
  induction l as [|x l IH]; intros s k; cbn; [auto|]. destruct (IH (evict x s) k) as (A & B & D). rewrite A, B, D, evict_resident, evict_meta.
  assert (EV : s_evicted (evict x s) = S (s_evicted s)) by (rewrite evict_nf; reflexivity). rewrite EV.
  unfold memk. cbn. destruct (key_eqb k x), (existsb (key_eqb k) l); cbn; auto.
Qed.
Lemma lru_split c rd : forall l n s, exists m, (m <= length l)%nat /\ sweep_lru c rd n l s = fold_left (fun s k => evict k s) (map fst (firstn m l)) s /\
  (forall i, (i < m)%nat -> rd (n + i)%nat > c_budget c) /\ (m = length l \/ rd (n + m)%nat <= c_budget c).
Proof.
  induction l as [|[k v] l IH]; intros n s; cbn.
  - exists 0%nat. repeat split; [lia|intros; lia|auto].
  - destruct (rd n <=? c_budget c) eqn:E.
    + exists 0%nat. cbn. repeat split; [lia|intros; lia|]. right. rewrite Nat.add_0_r. lia.
    + destruct (IH (S n) (evict k s)) as (m & M1 & M2 & M3 & M4). exists (S m). cbn. split; [lia|]. split; [exact M2|]. split.
      * intros [|i] Hi; [rewrite Nat.add_0_r; lia|]. replace (n + S i)%nat with (S n + i)%nat by lia. apply M3. lia.
      * destruct M4 as [->|M4]; [auto|]. right. replace (n + S m)%nat with (S n + m)%nat by lia. exact M4.
Qed.
Lemma insert_perm p l : Permutation (insert_by_hit p l) (p :: l).
Proof. induction l as [|q l IH]; cbn; [reflexivity|]. destruct (snd p <=? snd q); [reflexivity|]. rewrite IH. apply perm_swap. Qed.
Lemma sort_perm l : Permutation (sort_by_hit l) l.
Proof. induction l as [|p l IH]; cbn; [reflexivity|]. rewrite insert_perm, IH. reflexivity. Qed.
Definition hit_le (a b : key * Z) : Prop := snd a <= snd b.
Lemma insert_sorted p l : StronglySorted hit_le l -> StronglySorted hit_le (insert_by_hit p l).
Proof.
  induction 1 as [|q l S IH F]; cbn; [repeat constructor|]. destruct (snd p <=? snd q) eqn:E.
  - constructor; [constructor; assumption|]. constructor; [unfold hit_le; lia|]. eapply Forall_impl; [|exact F]. unfold hit_le. intros a Ha. cbn in Ha. lia.
  - constructor; [exact IH|]. apply (Permutation_Forall (Permutation_sym (insert_perm p l))). constructor; [unfold hit_le; lia|exact F].
Qed.
Lemma sort_sorted l : StronglySorted hit_le (sort_by_hit l).
Proof. induction l as [|p l IH]; cbn; [constructor|]. apply insert_sorted. exact IH. Qed.
Lemma sorted_split m : forall l, StronglySorted hit_le l -> StronglySorted hit_le (firstn m l) /\ forall a b, In a (firstn m l) -> In b (skipn m l) -> hit_le a b.
Proof.
  induction m as [|m IH]; intros l S; cbn; [split; [constructor|tauto]|]. destruct l as [|x l]; [split; [constructor|cbn; tauto]|]. inversion S; subst. destruct (IH l H1) as [A B]. split.
  - constructor; [exact A|]. rewrite Forall_forall in *. intros y I. apply H2. rewrite <- (firstn_skipn m l). apply in_app_iff. auto.
  - intros a b [<-|I] J; [|eauto]. rewrite Forall_forall in H2. apply H2. rewrite <- (firstn_skipn m l). apply in_app_iff. auto.
Qed.

Lemma ss_nth l : StronglySorted hit_le l -> forall i j a b, (i < j)%nat -> nth_error l i = Some a -> nth_error l j = Some b -> hit_le a b.
Proof.
  induction 1 as [|x l S IH F]; intros i j a b L A B; [destruct i; discriminate|]. destruct j as [|j]; [lia|]. destruct i as [|i]; cbn in *.
  - injection A as <-. rewrite Forall_forall in F. apply F. eapply nth_error_In; eauto.
  - eapply IH; [|exact A|exact B]. lia.
Qed.

Lemma sweep_swept c now rd order s : maps_ok s -> (forall l, Permutation (order l) l) -> exists ik lru, swept c now rd s (sweep c now rd order s) ik lru.
Proof.
  intros M PO. unfold sweep. destruct (should_sweep c now rd s) eqn:SW; cbn [negb].
  2:{ assert (ND : ~ sweep_due c now rd s).
      { intros [[A B]|[A B]]; unfold should_sweep in SW; apply orb_false_iff in SW as [S1 S2]; [lia|]. destruct (c_idle c); [lia|congruence]. }
      exists [], []. split; cbn; intros; try tauto; try congruence; try lia; auto. destruct i; discriminate. }
  set (s0 := set_last_sweep now s).
  set (ik := match c_idle c with Some d => map fst (filter (fun p => now - snd p >? d) (s_meta s)) | None => [] end).
  set (s1 := sweep_idle c now s0).
  assert (E1 : forall k, get k (s_resident s1) = (if memk k ik then None else get k (s_resident s)) /\ get k (s_meta s1) = (if memk k ik then None else get k (s_meta s)) /\ s_evicted s1 = (length ik + s_evicted s)%nat).
  { intros k. unfold s1, sweep_idle, ik. destruct (c_idle c) as [d|]; [|auto]. apply (evicts_resident _ s0 k). }
  set (s2 := sweep_cold c now s1).
  assert (E2 : s_resident s2 = s_resident s1 /\ s_meta s2 = s_meta s1 /\ s_evicted s2 = s_evicted s1).
  { unfold s2. destruct (sweep_cold_nf c now s1) as (keep & lst & _ & -> & _). auto. }
  destruct E2 as (E2 & E3 & E4).
  assert (IK : forall k, In k ik -> exists d h, c_idle c = Some d /\ get k (s_meta s) = Some h /\ now - h > d).
  { intros k I. unfold ik in I. destruct (c_idle c) as [d|]; [|destruct I]. apply in_map_iff in I as ([k' h] & <- & I). apply filter_In in I as [I G]. exists d, h. split; [reflexivity|].
    split; [apply (in_kget key_eqb KE); [apply M|exact I]|cbn in G; lia]. }
  assert (IKA : forall k d h, c_idle c = Some d -> get k (s_meta s) = Some h -> now - h > d -> In k ik).
  { intros k d h CI G L. unfold ik. rewrite CI. apply in_map_iff. exists (k, h). split; [reflexivity|]. apply filter_In. split; [apply (kget_in key_eqb KE); exact G|]. cbn. lia. }
  assert (M1 : NoDup (map fst (s_meta s1))).
  { unfold s1, sweep_idle. destruct (c_idle c) as [d|]; [|apply M]. assert (X : forall l t, NoDup (map fst (s_meta t)) -> NoDup (map fst (s_meta (fold_left (fun s k => evict k s) l t)))).
    { induction l as [|x l IH]; intros t N; cbn; [exact N|]. apply IH. rewrite evict_nf. cbn. maps. }
    apply X. apply M. }
  destruct ((c_budget c >? 0) && (rd 1%nat >? c_budget c)) eqn:BU.
  - apply andb_true_iff in BU as [B1 B2]. set (cands := sort_by_hit (filter (fun p => is_jit s2 (fst p)) (order (s_meta s2)))).
    assert (CI : forall k v, In (k, v) cands <-> get k (s_meta s1) = Some v /\ is_jit s1 k = true).
    { intros k v. unfold cands. split.
      - intros I. apply (Permutation_in _ (sort_perm _)) in I. apply filter_In in I as [I J]. apply (Permutation_in _ (PO _)) in I. rewrite E3 in I. cbn in J. unfold is_jit in *. rewrite E2 in J.
        split; [apply (in_kget key_eqb KE); assumption|exact J].
      - intros [G J]. apply (Permutation_in _ (Permutation_sym (sort_perm _))). apply filter_In. cbn. unfold is_jit in *. rewrite E2. split; [|exact J].
        apply (Permutation_in _ (Permutation_sym (PO _))). rewrite E3. apply (kget_in key_eqb KE). exact G. }
    destruct (lru_split c rd cands 2 s2) as (m & L1 & L2 & L3 & L4).
    set (lru := map fst (firstn m cands)) in *.
    assert (LL : length lru = m) by (unfold lru; rewrite map_length, firstn_length; lia).
    pose proof (sort_sorted (filter (fun p => is_jit s2 (fst p)) (order (s_meta s2)))) as SS. fold cands in SS.
    destruct (sorted_split m cands SS) as [SS1 SS2].
    assert (FI : forall k, In k lru -> exists v, In (k, v) (firstn m cands) /\ In (k, v) cands).
    { intros k I. unfold lru in I. apply in_map_iff in I as ([k' v] & <- & I). exists v. split; [exact I|]. rewrite <- (firstn_skipn m cands). apply in_app_iff. auto. }
    assert (RES : forall k, get k (s_resident (sweep_lru c rd 2 cands s2)) = (if memk k (ik ++ lru) then None else get k (s_resident s)) /\
      get k (s_meta (sweep_lru c rd 2 cands s2)) = (if memk k (ik ++ lru) then None else get k (s_meta s)) /\ s_evicted (sweep_lru c rd 2 cands s2) = (length (ik ++ lru) + s_evicted s)%nat).
    { intros k. rewrite L2. destruct (evicts_resident lru s2 k) as (A & B & D). rewrite A, B, D. rewrite E2, E3, E4. destruct (E1 k) as (A1 & B1' & D1). rewrite A1, B1', D1.
      unfold memk. rewrite existsb_app, app_length. destruct (existsb (key_eqb k) ik), (existsb (key_eqb k) lru); cbn; (split; [|split]); auto; lia. }
    assert (JIT : forall k, is_jit s1 k = true -> ~ In k ik /\ exists p, get k (s_resident s) = Some p /\ p_kind p = Jit).
    { intros k J. unfold is_jit in J. destruct (E1 k) as (A1 & _). rewrite A1 in J. destruct (memk k ik) eqn:MK; [discriminate|]. split; [intros I; apply memk_in in I; congruence|].
      destruct (get k (s_resident s)) as [p|]; [|discriminate]. exists p. split; [reflexivity|]. destruct (p_kind p); [reflexivity|discriminate]. }
    assert (META : forall k v, In (k, v) cands -> get k (s_meta s) = Some v).
    { intros k v I. apply CI in I as [G _]. destruct (E1 k) as (_ & B & _). rewrite B in G. destruct (memk k ik); [discriminate|exact G]. }
    assert (SURV : forall b p, get b (s_resident (sweep_lru c rd 2 cands s2)) = Some p -> p_kind p = Jit -> exists v, In (b, v) (skipn m cands)).
    { intros b p G J. destruct (RES b) as (R1 & _). rewrite R1 in G. destruct (memk b (ik ++ lru)) eqn:MK; [discriminate|].
      assert (NI : memk b ik = false) by (unfold memk in *; rewrite existsb_app in MK; apply orb_false_iff in MK; tauto).
      assert (NL : memk b lru = false) by (unfold memk in *; rewrite existsb_app in MK; apply orb_false_iff in MK; tauto).
      assert (HM : exists v, get b (s_meta s) = Some v). { apply has_get. rewrite <- (mo_keys _ M). apply has_get. eauto. }
      destruct HM as [v HM]. exists v. assert (IC : In (b, v) cands).
      { apply CI. destruct (E1 b) as (A1 & B1' & _). unfold is_jit. rewrite A1, B1', NI, G, J. auto. }
      rewrite <- (firstn_skipn m cands) in IC. apply in_app_iff in IC as [IC|IC]; [|exact IC]. exfalso.
      assert (In b lru) by (unfold lru; apply in_map_iff; exists (b, v); auto). apply memk_in in H. congruence. }
    exists ik, lru. split.
    + intros k. apply RES.
    + intros k. apply RES.
    + apply (RES (0, 0)).
    + exact IK.
    + intros k d h _. apply IKA.
    + intros k I. split; [lia|]. split; [lia|]. destruct (FI k I) as (v & _ & I'). apply CI in I' as [_ J]. apply JIT. exact J.
    + rewrite LL. exact L3.
    + intros i j a b h h' L A B Ha Hb. unfold lru in A, B. rewrite nth_error_map in A, B. destruct (nth_error (firstn m cands) i) as [[ka va]|] eqn:NA; [|discriminate]. destruct (nth_error (firstn m cands) j) as [[kb vb]|] eqn:NB; [|discriminate].
      cbn in A, B. injection A as <-. injection B as <-. pose proof (ss_nth _ SS1 i j _ _ L NA NB) as X. unfold hit_le in X. cbn in X.
      assert (FC : forall x, In x (firstn m cands) -> In x cands) by (intros x I; rewrite <- (firstn_skipn m cands); apply in_app_iff; auto).
      rewrite (META ka va (FC _ (nth_error_In _ _ NA))) in Ha. rewrite (META kb vb (FC _ (nth_error_In _ _ NB))) in Hb. congruence.
    + intros a b p h h' I G J Ha Hb. destruct (FI a I) as (v & I1 & I2). destruct (SURV b p G J) as (v' & I3).
      pose proof (SS2 _ _ I1 I3) as X. unfold hit_le in X. cbn in X. rewrite (META a v I2) in Ha.
      assert (IC : In (b, v') cands) by (rewrite <- (firstn_skipn m cands); apply in_app_iff; auto). rewrite (META b v' IC) in Hb. congruence.
    + intros _ _ _. rewrite LL. destruct L4 as [L4|L4]; [right|left; exact L4]. intros b p G. destruct (p_kind p) eqn:PK; [|reflexivity]. exfalso.
      destruct (SURV b p G PK) as (v & I). rewrite skipn_all2 in I by lia. destruct I.
  - exists ik, []. split; try rewrite app_nil_r.
    + intros k. rewrite E2. apply E1.
    + intros k. rewrite E3. apply E1.
    + rewrite E4. apply (E1 (0, 0)).
    + exact IK.
    + intros k d h _. apply IKA.
    + intros k [].
    + cbn. intros; lia.
    + intros [|i] j a b h h' _ X; discriminate.
    + intros a b p h h' [].
    + intros _ Hb Hr. apply andb_false_iff in BU. destruct BU; lia.
Qed.

(** ** Lookup accounting. *)
Definition tag (ev : event) : nat * bool := (ev_id ev, ev_hit ev).
Definition all_events (s : state) : list event := s_looking s ++ s_events s ++ s_g_processed s ++ s_g_overflow s ++ s_g_discarded s.
Definition ev_wf (ev : event) : Prop := ev_hit ev = true <-> ev_code ev = [].
Record accounted (pre : list bool) (s : state) : Prop := {
  ac_tags : Permutation (map tag (all_events s)) (indexed pre);
  ac_next : s_next_look s = length pre;
  ac_wf : forall ev, In ev (s_looking s ++ s_events s) -> ev_wf ev;
  ac_hits : s_hits s = (count ev_hit (s_g_processed s) + count (fun b => b) (s_g_tracked s))%nat;
  ac_misses : s_misses s = (count (fun ev => negb (ev_hit ev)) (s_g_processed s) + count negb (s_g_tracked s))%nat;
  ac_dropped : s_dropped s = length (s_g_overflow s) }.

Lemma combine_snoc {A B} (a : list A) (b : list B) x y : length a = length b -> combine (a ++ [x]) (b ++ [y]) = combine a b ++ [(x, y)].
Proof. revert b. induction a as [|u a IH]; intros [|v b] E; cbn in *; try discriminate; [reflexivity|]. f_equal. apply IH. lia. Qed.
Lemma indexed_snoc {A} (l : list A) x : indexed (l ++ [x]) = indexed l ++ [(length l, x)].
Proof. unfold indexed. rewrite app_length. cbn [length]. rewrite seq_app. cbn [seq plus]. apply combine_snoc. apply seq_length. Qed.
Lemma perm_in4 {A} (x : A) a b c d e : Permutation (x :: a ++ b ++ c ++ d ++ e) (a ++ b ++ c ++ (x :: d) ++ e).
Proof.
  replace (a ++ b ++ c ++ d ++ e) with ((a ++ b ++ c) ++ (d ++ e)) by (rewrite <- !app_assoc; reflexivity).
  replace (a ++ b ++ c ++ (x :: d) ++ e) with ((a ++ b ++ c) ++ x :: (d ++ e)) by (rewrite <- !app_assoc; reflexivity). apply Permutation_middle.
Qed.
Lemma perm_in2 {A} (x : A) a b c : Permutation (x :: a ++ b ++ c) (a ++ (b ++ [x]) ++ c).
Proof.
  replace (a ++ b ++ c) with ((a ++ b) ++ c) by (rewrite <- !app_assoc; reflexivity).
  replace (a ++ (b ++ [x]) ++ c) with ((a ++ b) ++ x :: c) by (rewrite <- !app_assoc; reflexivity). apply Permutation_middle.
Qed.
Definition answer1 (c : config) (a : action) (s : state) : list bool :=
  match a with
  | ALookup busy k code => match lookup_decide c busy k code s with Compiled _ => [true] | NotReady => [false] | _ => [] end
  | _ => []
  end.
Lemma accounted_same pre s s' : same_queues s s' -> accounted pre s -> accounted pre s'.
Proof.
  intros (F1 & F2 & F3 & F4 & F5 & F6 & F7 & F8 & F9 & F10 & F11 & F12 & F13 & F14) [A B C D E F].
  split; unfold all_events in *; rewrite ?F2, ?F3, ?F4, ?F5, ?F6, ?F7, ?F8, ?F9, ?F10, ?F11; assumption.
Qed.
Lemma decide_code c busy k code s : lookup_decide c busy k code s = NotReady -> code <> [].
Proof. unfold lookup_decide. destruct (negb (s_enabled s)); [discriminate|]. destruct code; [discriminate|]. discriminate. Qed.

Lemma accounted_act c a s s' pre : act c a s = Some s' -> accounted pre s -> accounted (pre ++ answer1 c a s) s'.
Proof.
  intros H AC. pose proof AC as [A B C D E F]. destruct a; cbn [act answer1] in *; rewrite ?app_nil_r.
  - destruct (lookup_decide c busy k code s) as [p| | |] eqn:LD; injection H as <-; rewrite ?app_nil_r; auto; split; cbn; auto; try (rewrite app_length; cbn; lia).
    + rewrite indexed_snoc. unfold all_events. cbn. unfold tag at 1. cbn. rewrite B, <- Permutation_cons_append. constructor. exact A.
    + intros ev [<-|I]; [split; reflexivity|auto].
    + rewrite indexed_snoc. unfold all_events. cbn. unfold tag at 1. cbn. rewrite B, <- Permutation_cons_append. constructor. exact A.
    + intros ev [<-|I]; [|auto]. pose proof (decide_code _ _ _ _ _ LD). split; cbn; congruence.
  - destruct (nth_error (s_looking s) n) as [ev|] eqn:NE; [|discriminate]. injection H as <-. pose proof (del_nth_perm _ _ _ NE) as PM.
    assert (X : Permutation (all_events s) (ev :: del_nth n (s_looking s) ++ s_events s ++ s_g_processed s ++ s_g_overflow s ++ s_g_discarded s)).
    { unfold all_events. rewrite PM at 1. reflexivity. }
    destruct (length (s_events s) <? c_cap c)%nat; split; cbn; auto; try (rewrite F; reflexivity); try lia.
    + rewrite <- A. apply Permutation_map. rewrite X. unfold all_events. cbn. symmetry. apply perm_in2.
    + intros e I. apply C. apply in_app_iff in I as [I|I]; [apply in_app_iff; left; eapply del_nth_in; eauto|]. apply in_app_iff in I as [I|[<-|[]]]; apply in_app_iff; [auto|]. left. eapply nth_error_In; eauto.
    + rewrite <- A. apply Permutation_map. rewrite X. unfold all_events. cbn. symmetry. apply (perm_in4 ev).
    + intros e I. apply C. apply in_app_iff in I as [I|I]; apply in_app_iff; [left; eapply del_nth_in; eauto|auto].
  - injection H as <-. destruct (has k (s_resident s)) eqn:HK; split; cbn; auto; rewrite ?count_cons; cbn; lia.
  - destruct (nid_of x) eqn:NX; [discriminate|]. destruct (s_halted s); [injection H as <-; auto|]. destruct (length (s_cmds s) <? c_cap c)%nat; [|discriminate]. injection H as <-. split; assumption.
  - destruct (s_halted s); [injection H as <-; split; assumption|]. destruct (length (s_cmds s) <? c_cap c)%nat; [|discriminate]. injection H as <-. split; assumption.
  - injection H as <-. split; assumption.
  - destruct (s_halted s); [discriminate|]. destruct (s_cmds s) as [|x q] eqn:Q; [discriminate|]. injection H as <-.
    assert (AC' : accounted pre (set_cmds q s)) by (split; assumption).
    assert (CLR : accounted pre (handle_clear_resident (set_cmds q s))).
    { unfold handle_clear_resident. rewrite notify_all_nf. split; cbn; auto.
      - rewrite <- A. apply Permutation_map. unfold all_events. cbn. apply Permutation_app_head. rewrite (app_assoc (s_g_processed s)), (Permutation_app_swap_app (s_g_processed s ++ s_g_overflow s)), <- app_assoc. reflexivity.
      - intros ev I. apply C. rewrite app_nil_r in I. apply in_app_iff. auto. }
    destruct x; cbn [handle].
    + eapply accounted_same; [eapply admitted_frame, try_admit_cases|exact AC'].
    + eapply accounted_same; [apply prepare_frame|exact AC'].
    + exact CLR.
    + unfold handle_clear_persisted. destruct (s_store _); [destruct (o_io o 0%nat)|]; destruct AC'; split; assumption.
    + unfold handle_clear_persisted. destruct (s_store _); [destruct (o_io o 0%nat)|]; destruct CLR; split; assumption.
    + unfold shutdown. rewrite lose_all_nf. split; assumption.
  - destruct (s_halted s); [discriminate|]. destruct (s_events s) as [|ev q] eqn:Q; [discriminate|]. injection H as <-. unfold handle_lookup_observed.
    assert (W : ev_wf ev) by (apply C; apply in_app_iff; right; left; reflexivity).
    assert (T : Permutation (map tag (s_looking s ++ q ++ (ev :: s_g_processed s) ++ s_g_overflow s ++ s_g_discarded s)) (indexed pre)).
    { rewrite <- A. apply Permutation_map. unfold all_events. rewrite Q. apply Permutation_app_head. cbn. rewrite <- Permutation_middle. reflexivity. }
    assert (C' : forall e, In e (s_looking s ++ q) -> ev_wf e).
    { intros e I. apply C. apply in_app_iff in I as [I|I]; apply in_app_iff; cbn; auto. }
    destruct (ev_code ev) eqn:EC.
    + assert (HT : ev_hit ev = true) by (apply W; exact EC).
      destruct (has (ev_key ev) _); split; cbn; auto; rewrite ?count_cons, HT; cbn; lia.
    + assert (HF : ev_hit ev = false) by (destruct (ev_hit ev) eqn:X; [apply W in X; congruence|reflexivity]).
      eapply accounted_same; [eapply admitted_frame, try_admit_cases|]. split; cbn; auto; rewrite ?count_cons, HF; cbn; lia.
  - destruct (s_halted s); [discriminate|]. destruct (nth_error (s_inflight s) n) as [j|] eqn:NE; [|discriminate]. destruct (j_phase j) eqn:PH; try discriminate. injection H as <-.
    eapply accounted_same; [eapply resulted_frame, handle_worker_result_cases|]. split; assumption.
  - destruct (s_halted s); [discriminate|]. injection H as <-. eapply accounted_same; [apply sweep_frame|exact AC].
  - destruct (nth_error (s_inflight s) n) as [j|]; [|discriminate]. destruct (j_phase j); try discriminate. injection H as <-. split; assumption.
  - destruct (nth_error (s_inflight s) n) as [j|]; [|discriminate]. destruct (j_phase j); try discriminate. injection H as <-. split; assumption.
Qed.
Lemma accounted_runs c l s s' : runs c s l s' -> forall pre, accounted pre s -> accounted (pre ++ answers c s l) s'.
Proof.
  induction 1 as [|s a s1 l s2 F H R IH]; intros pre AC; cbn [answers]; [rewrite app_nil_r; exact AC|]. rewrite H.
  change (match a with ALookup busy k code => match lookup_decide c busy k code s with Compiled _ => [true] | NotReady => [false] | _ => [] end | _ => [] end) with (answer1 c a s).
  rewrite app_assoc. apply IH. eapply accounted_act; eauto.
Qed.
