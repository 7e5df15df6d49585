(** Proofs for C38, continued: the steps of the runtime. *)
From Verif Require Import HoldSpec RuntimeProof RuntimeInv RuntimeInv2 RuntimeInv4 RuntimeInv7 RuntimeInv8 HoldProof.
Open Scope nat_scope.

(** ** Each step of the runtime is a sequence of effects. *)
Definition allq (l : list lab) : Prop := Forall (eq LQuiet) l.
Lemma admit_entry_frame c now kd k nid md e s : s_resident (admit_entry c now kd k nid md e s) = s_resident s /\ s_store (admit_entry c now kd k nid md e s) = s_store s.
Proof.
  unfold admit_entry. destruct (e_phase e); [|auto]. destruct (match md with Observed => _ | Explicit => false end); [rewrite lose_nf; auto|].
  destruct (_ <=? _); [rewrite notify_nf; auto|]. unfold try_send. destruct (_ =? _); [rewrite notify_nf; auto|]. destruct (_ <=? _); [rewrite notify_nf; auto|]. auto.
Qed.
Lemma admit_effs c io now kd k code nid md s m :
  exists l, allq l /\ effs (s_resident s) (s_store s) m l (s_resident (try_admit c io now kd k code nid md s)) (s_store (try_admit c io now kd k code nid md s)) (m_admit c io kd k code md s m).
Proof.
  assert (Same : forall s', s_resident s' = s_resident s /\ s_store s' = s_store s -> exists l, allq l /\ effs (s_resident s) (s_store s) m l (s_resident s') (s_store s') m).
  { intros s' [-> ->]. exists []. split; constructor. }
  unfold try_admit, m_admit. destruct (has k (s_resident s)); [apply Same; rewrite notify_nf; auto|].
  destruct (negb (should_compile c code)); [apply Same; rewrite notify_nf; auto|].
  destruct (match md with Observed => _ | Explicit => false end); [apply Same; rewrite lose_nf; auto|].
  destruct kd; [apply Same, admit_entry_frame|].
  unfold try_load_persisted_aot. destruct (s_store s) as [st|] eqn:S; [|apply Same; rewrite <- S; apply admit_entry_frame].
  unfold aget. destruct (kget akey_eqb (k, c_aot_opt c) st) as [f|] eqn:A; [|apply Same; rewrite <- S; apply admit_entry_frame].
  destruct io; [|apply Same; rewrite <- S; apply admit_entry_frame].
  rewrite notify_nf. cbn. exists [LQuiet]. split; [repeat constructor|]. apply effs_one. rewrite S. eapply e_load; [reflexivity|exact A].
Qed.
Lemma prepare_effs c io now reqs : forall n s m,
  exists l, allq l /\ effs (s_resident s) (s_store s) m l (s_resident (handle_prepare_aot c io now n reqs s)) (s_store (handle_prepare_aot c io now n reqs s)) (m_prepare c io now n reqs s m).
Proof.
  induction reqs as [|[k code] reqs IH]; intros n s m; cbn; [exists []; split; constructor|].
  destruct (admit_effs c (io n) now Aot k code None Explicit s m) as (l1 & Q1 & E1).
  destruct (IH (S n) (try_admit c (io n) now Aot k code None Explicit s) (m_admit c (io n) Aot k code Explicit s m)) as (l2 & Q2 & E2).
  exists (l1 ++ l2). split; [apply Forall_app; auto|eapply effs_app; eauto].
Qed.
Lemma er_frame k s : s_resident (entries_remove k s) = s_resident s /\ s_store (entries_remove k s) = s_store s.
Proof. unfold entries_remove. rewrite lose_all_nf. auto. Qed.
Lemma result_effs c io now j o s s0 m : s_resident s0 = s_resident s -> s_store s0 = s_store s -> s_gen s0 = s_gen s ->
  exists l, (allq l \/ o = OAot /\ j_gen j = s_gen s /\ exists l', l = LWrite (j_key j, c_aot_opt c) :: l' /\ allq l') /\
  effs (s_resident s) (s_store s) m l (s_resident (handle_worker_result c io now j o s0)) (s_store (handle_worker_result c io now j o s0)) (m_result c io j o s m).
Proof.
  intros E1 E2 E3. unfold handle_worker_result, m_result.
  set (s1 := match get (j_key j) _ with Some e => _ | None => _ end).
  assert (F : s_resident s1 = s_resident s /\ s_store s1 = s_store s /\ s_gen s1 = s_gen s).
  { unfold s1. destruct (get (j_key j) _); cbn; auto. }
  destruct F as (F1 & F2 & F3). clearbody s1. rewrite F3. rewrite !notify_all_nf, !notify_nf. cbn [s_resident s_store set_notified].
  destruct (j_gen j =? s_gen s) eqn:GE; cbn [negb].
  2:{ exists []. split; [left; constructor|]. cbn [s_resident s_store set_notified]. destruct (er_frame (j_key j) s1) as [-> ->]. rewrite F1, F2. constructor. }
  apply Nat.eqb_eq in GE. cbn [s_resident s_store set_notified].
  assert (Same : forall s', s_resident s' = s_resident s -> s_store s' = s_store s -> exists l, (allq l \/ o = OAot /\ j_gen j = s_gen s /\ exists l', l = LWrite (j_key j, c_aot_opt c) :: l' /\ allq l') /\ effs (s_resident s) (s_store s) m l (s_resident s') (s_store s') m).
  { intros s' -> ->. exists []. split; [left; constructor|constructor]. }
  assert (Pub : forall s', s_resident s' = set (j_key j) (mkProg (j_key j) Jit (job_func j)) (s_resident s) -> s_store s' = s_store s -> exists l, (allq l \/ o = OAot /\ j_gen j = s_gen s /\ exists l', l = LWrite (j_key j, c_aot_opt c) :: l' /\ allq l') /\ effs (s_resident s) (s_store s) m l (s_resident s') (s_store s') (m_insert (j_key j) (BJit (job_func j)) m)).
  { intros s' -> ->. exists [LQuiet]. split; [left; repeat constructor|]. apply effs_one. apply e_jit. }
  destruct o.
  - apply Pub; cbn [s_resident s_store set_succeeded]; [rewrite (proj1 (er_frame _ _)); cbn|rewrite (proj2 (er_frame _ _)); cbn]; congruence.
  - unfold handle_aot_success. rewrite F2. destruct (s_store s) as [st|] eqn:S.
    2:{ rewrite <- S in *. apply Same; cbn [s_resident s_store set_failed]; [rewrite (proj1 (er_frame _ _))|rewrite (proj2 (er_frame _ _))]; congruence. }
    rewrite <- S in *. destruct (io 0).
    + rewrite (kget_set akey_eqb AE), arefl. destruct (io 1).
      * exists [LWrite (j_key j, c_aot_opt c); LQuiet]. split; [right; split; [reflexivity|]; split; [exact GE|]; eexists; split; [reflexivity|repeat constructor]|].
        cbn [s_resident s_store set_succeeded]. destruct (er_frame (j_key j) (insert_resident now (j_key j) (mkProg (j_key j) Aot (job_func j)) (set_store (Some (kset akey_eqb (j_key j, c_aot_opt c) (job_func j) st)) s1))) as [-> ->]. cbn [s_resident s_store insert_resident set_meta set_resident set_store]. rewrite F1. econstructor; [eapply e_store; exact S|]. apply effs_one. eapply e_load; [reflexivity|]. unfold aget, aset. rewrite (kget_set akey_eqb AE), arefl. reflexivity.
      * exists [LWrite (j_key j, c_aot_opt c)]. split; [right; split; [reflexivity|]; split; [exact GE|]; eexists; split; [reflexivity|constructor]|].
        cbn [s_resident s_store set_failed]. destruct (er_frame (j_key j) (set_store (Some (kset akey_eqb (j_key j, c_aot_opt c) (job_func j) st)) s1)) as [-> ->]. cbn [s_resident s_store set_store]. rewrite F1. apply effs_one. eapply e_store. exact S.
    + cbn [s_resident s_store set_failed]. destruct (er_frame (j_key j) s1) as [-> ->]. rewrite F1, F2. destruct (io 3).
      * exists [LWrite (j_key j, c_aot_opt c)]. split; [right; split; [reflexivity|]; split; [exact GE|]; eexists; split; [reflexivity|constructor]|]. apply effs_one. eapply e_spoil. exact S.
      * exists []. split; [left; constructor|constructor].
  - destruct (io 2); [apply Pub|apply Same]; cbn [s_resident s_store set_succeeded set_failed]; first [rewrite (proj1 (er_frame _ _))|rewrite (proj2 (er_frame _ _))]; cbn; congruence.
  - apply Same; cbn [s_resident s_store set_failed]; first [rewrite (proj1 (er_frame _ _))|rewrite (proj2 (er_frame _ _))]; congruence.
Qed.

Lemma sweep_resident c now rd order s : (forall l, Permutation (order l) l) ->
  s_store (sweep c now rd order s) = s_store s /\ forall k, get k (s_resident (sweep c now rd order s)) = get k (s_resident s) \/ get k (s_resident (sweep c now rd order s)) = None.
Proof.
  intros PO. set (Q := fun t => (s_store t = s_store s /\ forall k, get k (s_resident t) = get k (s_resident s) \/ get k (s_resident t) = None) /\ (forall k v, In (k, v) (s_meta t) -> has k (s_meta s) = true)).
  enough (X : Q (sweep c now rd order s)) by apply X. apply (sweep_ind Q c now rd order s PO).
  - intros t k v [_ X] I. eauto.
  - split; [auto|]. intros k v I. eapply in_has; eauto.
  - split; [cbn; auto|]. intros k v I. eapply in_has; eauto.
  - intros t k [[T1 T2] T3] _. rewrite evict_nf. split; [split; [exact T1|]|].
    + intros k'. cbn. change (kdel key_eqb k (s_resident t)) with (del k (s_resident t)). rewrite get_del. destruct (key_eqb k' k); auto.
    + intros k' v I. cbn in I. apply (kdel_in key_eqb KE) in I as [I _]. eauto.
  - intros t [T1 T2]. destruct (sweep_cold_nf c now t) as (keep & lst & _ & -> & _). split; [exact T1|exact T2].
Qed.

Lemma lookup_compiled c busy k code s p : lookup_decide c busy k code s = Compiled p -> get k (s_resident s) = Some p.
Proof.
  unfold lookup_decide. repeat match goal with |- context [if ?b then _ else _] => destruct b; try discriminate end. destruct (get k (s_resident s)); try discriminate.
  intros E. injection E as ->. reflexivity.
Qed.

Lemma clear_eff R St m : gi R St m -> eff R St m LQuiet [] St (m_clear m).
Proof.
  intros G. unfold m_clear. apply e_drop. intros k. change (get k (@nil (key * program))) with (@None program). destruct (existsb (key_eqb k) (map fst (m_res m))) eqn:E; [reflexivity|].
  pose proof (gi_res _ _ _ G k) as X. assert (N : get k (m_res m) = None).
  { apply (kget_none key_eqb KE). intros I. assert (existsb (key_eqb k) (map fst (m_res m)) = true) by (apply existsb_exists; exists k; split; [exact I|apply krefl]). congruence. }
  rewrite N in X. destruct (get k R); [tauto|reflexivity].
Qed.

Definition shape (c : config) (a : haction) (s : state) (l : list lab) : Prop :=
  allq l \/
  (exists n o j, a = HAct (BResult n o) /\ nth_error (s_inflight s) n = Some j /\ j_phase j = Done OAot /\ j_gen j = s_gen s /\ exists l', l = LWrite (j_key j, c_aot_opt c) :: l' /\ allq l') \/
  (exists o x q, a = HAct (BCmd o) /\ s_cmds s = x :: q /\ any_clear x = true /\ Forall (fun b => b = LQuiet \/ b = LUnlink) l).

Lemma hact_effs c a s m s' m' : (forall b, a = HAct b -> fair_action b) -> hact c a (s, m) = Some (s', m') -> gi (s_resident s) (s_store s) m ->
  exists l, shape c a s l /\ effs (s_resident s) (s_store s) m l (s_resident s') (s_store s') m'.
Proof.
  intros FA H G. destruct a as [a|n]; cbn [hact fst snd] in H.
  2:{ destruct (nth_error (m_held m) n) as [[o p]|] eqn:N; [|discriminate]. injection H as <- <-. exists [LQuiet]. split; [left; repeat constructor|]. apply effs_one. eapply e_free. exact N. }
  destruct (act c a s) as [s1|] eqn:A; [|discriminate]. injection H as <- <-. specialize (FA a eq_refl).
  assert (Same : forall t, s_resident t = s_resident s -> s_store t = s_store s -> exists l, shape c (HAct a) s l /\ effs (s_resident s) (s_store s) m l (s_resident t) (s_store t) m).
  { intros t -> ->. exists []. split; [left; constructor|constructor]. }
  assert (Quiet : forall R St m', (exists l, allq l /\ effs (s_resident s) (s_store s) m l R St m') -> exists l, shape c (HAct a) s l /\ effs (s_resident s) (s_store s) m l R St m').
  { intros R St m' (l & Q & E). exists l. split; [left; exact Q|exact E]. }
  destruct a; cbn [act m_act fair_action] in *.
  - destruct (lookup_decide c busy k code s) eqn:D; injection A as <-; try (apply Same; reflexivity).
    apply Quiet. exists [LQuiet]. split; [repeat constructor|]. apply effs_one. cbn. apply e_hand. eapply lookup_compiled; eauto.
  - destruct (nth_error (s_looking s) n); [|discriminate]. injection A as <-. destruct (length (s_events s) <? c_cap c); apply Same; reflexivity.
  - assert (F : s_resident s1 = s_resident s /\ s_store s1 = s_store s) by (injection A as <-; destruct (has k (s_resident s)); auto).
    destruct F as [-> ->]. destruct (get k (s_resident s)) as [p|] eqn:R; [|apply Same; reflexivity].
    apply Quiet. exists [LQuiet]. split; [repeat constructor|]. apply effs_one. apply e_hand. exact R.
  - destruct (nid_of x); [discriminate|]. destruct (s_halted s); [injection A as <-; apply Same; reflexivity|]. destruct (length (s_cmds s) <? c_cap c); [|discriminate]. injection A as <-. apply Same; reflexivity.
  - destruct (s_halted s); [injection A as <-; apply Same; reflexivity|]. destruct (length (s_cmds s) <? c_cap c); [|discriminate]. injection A as <-. apply Same; reflexivity.
  - injection A as <-. apply Same; reflexivity.
  - destruct (s_halted s); [discriminate|]. destruct (s_cmds s) as [|y q] eqn:CM; [discriminate|]. injection A as <-.
    destruct y; cbn [handle].
    + apply Quiet. exact (admit_effs c (o_io o 0) (o_now o) (if c_aot c then Aot else Jit) k code nid Explicit (set_cmds q s) m).
    + apply Quiet. exact (prepare_effs c (o_io o) (o_now o) reqs 0 (set_cmds q s) m).
    + exists [LQuiet]. split; [left; repeat constructor|]. unfold handle_clear_resident. rewrite notify_all_nf. cbn. apply effs_one, clear_eff. exact G.
    + unfold handle_clear_persisted. cbn [s_store set_cmds]. destruct (s_store s) as [st|] eqn:S; [|apply Same; cbn; auto]. destruct (o_io o 0); [|apply Same; cbn; auto].
      exists [LUnlink]. split; [right; right; exists o, ClearPersisted, q; repeat split; auto|]. cbn. apply effs_one. apply e_unlink. reflexivity.
    + unfold handle_clear_persisted, handle_clear_resident. rewrite notify_all_nf. cbn [s_store set_cmds set_notified set_gen set_g_discarded set_events set_entries set_meta set_resident].
      destruct (s_store s) as [st|] eqn:S.
      * destruct (o_io o 0).
        -- exists [LQuiet; LUnlink]. split; [right; right; exists o, ClearAll, q; repeat split; auto|]. cbn. econstructor; [apply clear_eff; exact G|]. apply effs_one. apply e_unlink. reflexivity.
        -- exists [LQuiet]. split; [left; repeat constructor|]. cbn. rewrite S. apply effs_one, clear_eff. exact G.
      * exists [LQuiet]. split; [left; repeat constructor|]. cbn. rewrite S. apply effs_one, clear_eff. exact G.
    + unfold shutdown. rewrite lose_all_nf. apply Same; reflexivity.
  - destruct (s_halted s); [discriminate|]. destruct (s_events s) as [|ev q]; [discriminate|]. injection A as <-. unfold handle_lookup_observed. destruct (ev_code ev) eqn:EC.
    + destruct (has (ev_key ev) _); apply Same; reflexivity.
    + apply Quiet. match goal with |- context [try_admit ?a1 ?a2 ?a3 ?a4 ?a5 ?a6 ?a7 ?a8 ?t0] => destruct (admit_effs a1 a2 a3 a4 a5 a6 a7 a8 t0 m) as (l0 & Q & E) end. exists l0. split; [exact Q|exact E].
  - destruct (s_halted s); [discriminate|]. destruct (nth_error (s_inflight s) n) as [j|] eqn:NT; [|discriminate]. destruct (j_phase j) as [| |oc] eqn:PH; try discriminate. injection A as <-.
    destruct (result_effs c (o_io o) (o_now o) j oc s (set_inflight (del_nth n (s_inflight s)) s) m eq_refl eq_refl eq_refl) as (l & SH & E). exists l. split; [|exact E].
    destruct SH as [Q|(-> & GE & l' & -> & Q)]; [left; exact Q|right; left]. exists n, o, j. repeat split; auto. exists l'. auto.
  - destruct (s_halted s); [discriminate|]. injection A as <-. destruct (sweep_resident c now rd order s FA) as [S R]. set (s1 := sweep c now rd order s) in *. clearbody s1.
    apply Quiet. exists [LQuiet]. split; [repeat constructor|]. rewrite S. apply effs_one, e_drop. intros k. destruct (existsb (key_eqb k) _) eqn:E.
    + apply existsb_exists in E as (k' & I & E). apply KE in E as <-. apply filter_In in I as [_ I]. apply negb_true_iff, has_false in I. exact I.
    + destruct (get k (s_resident s1)) as [p|] eqn:GP; [destruct (R k); congruence|].
      pose proof (gi_res _ _ _ G k) as X. destruct (get k (m_res m)) as [o|] eqn:GO; [|destruct (get k (s_resident s)); [tauto|reflexivity]].
      exfalso. assert (Y : existsb (key_eqb k) (filter (fun k0 => negb (has k0 (s_resident s1))) (map fst (m_res m))) = true); [|congruence].
      apply existsb_exists. exists k. split; [|apply krefl]. apply filter_In. split; [|apply negb_true_iff, has_false; exact GP]. apply (kget_in key_eqb KE) in GO. apply (in_map fst) in GO. exact GO.
  - destruct (nth_error (s_inflight s) n) as [j|]; [|discriminate]. destruct (j_phase j); try discriminate. injection A as <-. apply Same; reflexivity.
  - destruct (nth_error (s_inflight s) n) as [j|]; [|discriminate]. destruct (j_phase j); try discriminate. injection A as <-. apply Same; reflexivity.
Qed.

(** ** Code of an object. *)
Definition code_bk (b : option backing) (m : mem) : option func :=
  match b with None => None | Some (BJit f) => Some f | Some (BLib i) => match oget i (m_data m) with Some (Some f) => Some f | _ => None end end.
Lemma code_bk_of o m : code_of o m = code_bk (bk o m) m.
Proof. unfold code_of, code_bk, bk. destruct (oget o (m_objs m)) as [[[f|i] n]|]; reflexivity. Qed.
Lemma eff_data R St m a R' St' m' : eff R St m a R' St' m' -> gi R St m -> match a with LWrite _ => True | _ => m_data m' = m_data m end.
Proof.
  intros E G. pose proof (gi_mi _ _ _ G) as M. destruct E; try exact I.
  - unfold m_load. destruct (aget a (m_dir m)) as [i|]; [|reflexivity]. apply (insert_mi k (BLib i) m M).
  - apply (insert_mi k (BJit f) m M).
  - apply (removes_mi ks m M).
  - reflexivity.
  - unfold m_hand. destruct (get k (m_res m)); [|reflexivity]. cbn. unfold retain. destruct (oget n (m_objs m)) as [[b x]|]; reflexivity.
  - apply (free_mi n o p m M H).
Qed.
Lemma write_data a d m i : oget i (m_data (m_write a d m)) = oget i (m_data m) \/ aget a (m_dir m) = Some i \/ (aget a (m_dir m) = None /\ i = m_inodes m).
Proof.
  unfold m_write. destruct (aget a (m_dir m)) as [j|]; cbn [m_data set_files]; rewrite oget_set; [destruct (Nat.eqb_spec i j)|destruct (Nat.eqb_spec i (m_inodes m))]; subst; auto.
Qed.
(** Inodes: no object maps one that does not exist yet. *)
Record li (m : mem) : Prop := {
  li_nd : NoDup (map fst (m_dir m));
  li_dir : forall a i, aget a (m_dir m) = Some i -> i < m_inodes m;
  li_lib : forall o i, bk o m = Some (BLib i) -> i < m_inodes m }.
Lemma filter_nodup {V} (g : akey * V -> bool) l : NoDup (map fst l) -> NoDup (map fst (filter g l)).
Proof.
  induction l as [|x l IH]; cbn; [auto|]. intros N. inversion N as [|? ? NI N']; subst. destruct (g x); cbn; [|auto]. constructor; [|auto].
  intros I. apply NI. apply in_map_iff in I as (y & E & I). apply filter_In in I as [I _]. rewrite <- E. apply in_map. exact I.
Qed.
Lemma unlink_dir st m a i : NoDup (map fst (m_dir m)) -> aget a (m_dir (m_unlink st m)) = Some i -> aget a (m_dir m) = Some i.
Proof.
  cbn. intros N G. apply (kget_in akey_eqb AE) in G. apply filter_In in G as [G _]. apply (in_kget akey_eqb AE); assumption.
Qed.
Lemma li_sub m m' : li m -> m_dir m' = m_dir m -> m_inodes m' = m_inodes m -> (forall x i, bk x m' = Some (BLib i) -> i < m_inodes m) -> li m'.
Proof. intros [A B C] E1 E2 H. split; rewrite ?E1, ?E2; auto. Qed.
Lemma li_write a d m : li m -> li (m_write a d m).
Proof.
  intros L. destruct (write_frame a d m) as (_ & _ & F & _).
  assert (BK : forall x, bk x (m_write a d m) = bk x m) by (intros x; unfold bk; rewrite F; reflexivity).
  assert (IN : m_inodes m <= m_inodes (m_write a d m)) by (unfold m_write; destruct (aget a (m_dir m)); cbn; lia).
  split.
  - unfold m_write. destruct (aget a (m_dir m)); cbn; [apply L|]. apply (kset_nodup akey_eqb AE), L.
  - intros a' i. unfold m_write. destruct (aget a (m_dir m)); cbn; [apply (li_dir _ L)|]. rewrite aget_set. destruct (akey_eqb a' a); [intros E; injection E as <-; lia|]. intros E. apply (li_dir _ L) in E. lia.
  - intros o i. rewrite BK. intros E. apply (li_lib _ L) in E. lia.
Qed.
Lemma li_eff R St m a R' St' m' : eff R St m a R' St' m' -> gi R St m -> li m -> li m'.
Proof.
  intros E G L. pose proof (gi_mi _ _ _ G) as M. destruct E.
  - unfold m_load. destruct (aget a (m_dir m)) as [i|] eqn:D; [|exact L]. destruct (insert_mi k (BLib i) m M) as (_ & _ & B1 & _ & _ & _ & F2 & _ & F4).
    apply (li_sub m); auto. intros x j X. apply B1 in X as [X|X]; [apply (li_lib _ L _ _ X)|]. injection X as ->. apply (li_dir _ L _ _ D).
  - destruct (insert_mi k (BJit f) m M) as (_ & _ & B1 & _ & _ & _ & F2 & _ & F4). apply (li_sub m); auto. intros x j X. apply B1 in X as [X|X]; [apply (li_lib _ L _ _ X)|discriminate].
  - apply li_write. exact L.
  - apply li_write. exact L.
  - destruct (removes_mi ks m M) as (_ & _ & B1 & _ & _ & F2 & _ & F4). apply (li_sub m); auto. intros x j X. apply B1 in X. apply (li_lib _ L _ _ X).
  - split; [apply filter_nodup, L| |apply (li_lib _ L)]. intros a i X. apply unlink_dir in X; [apply (li_dir _ L _ _ X)|apply L].
  - pose proof (gi_res _ _ _ G k) as X. rewrite H in X. destruct (get k (m_res m)) as [o|] eqn:GO; [|tauto].
    destruct (hand_mi k p m o M GO) as (_ & _ & B1 & _ & _ & F2 & _ & F4). apply (li_sub m); auto. intros x i. rewrite B1. apply (li_lib _ L).
  - destruct (free_mi n o p m M H) as (_ & _ & B1 & _ & _ & F2 & _ & F4). apply (li_sub m); auto. intros x i Y. apply B1 in Y. apply (li_lib _ L _ _ Y).
Qed.
Lemma li_effs R St m l R' St' m' : effs R St m l R' St' m' -> gi R St m -> li m -> li m'.
Proof.
  induction 1 as [|R St m a R1 St1 m1 l R2 St2 m2 E _ IH]; intros G L; [exact L|]. apply IH; [eapply gi_eff; eauto|eapply li_eff; eauto].
Qed.

(** What a step does to the code of an object that is alive before and after. *)
Lemma code_eff R St m a R' St' m' o : eff R St m a R' St' m' -> gi R St m -> li m -> o < m_next m -> bk o m' <> None ->
  code_of o m' = code_of o m \/ exists b i, a = LWrite b /\ aget b (m_dir m) = Some i /\ bk o m = Some (BLib i).
Proof.
  intros E G L LT AL. destruct (gi_eff _ _ _ _ _ _ _ E G) as [G' [S _]]. destruct (S o LT) as [B|B]; [|congruence].
  rewrite !code_bk_of, B. pose proof (eff_data _ _ _ _ _ _ _ E G) as D. destruct (bk o m) as [[f|i]|] eqn:BO; cbn; auto.
  destruct a as [|b|]; [rewrite D; auto| |rewrite D; auto].
  assert (X : oget i (m_data m') = oget i (m_data m) \/ aget b (m_dir m) = Some i).
  { inversion E; subst; destruct (write_data b) with (d := @None func) (m := m) (i := i) as [X|[X|[_ X]]]; auto; try (apply (li_lib _ L) in BO; lia).
    - destruct (write_data b (Some f) m i) as [Y|[Y|[_ Y]]]; auto. apply (li_lib _ L) in BO. lia. }
  destruct X as [X|X]; [rewrite X; auto|]. right. exists b, i. auto.
Qed.

(** ** Intact. *)
Record qi (R : rmap) (St : smap) (m : mem) : Prop := {
  q_inj : forall a b i, aget a (m_dir m) = Some i -> aget b (m_dir m) = Some i -> a = b;
  q_st : forall st a f, St = Some st -> aget a st = Some f -> exists i, aget a (m_dir m) = Some i /\ oget i (m_data m) = Some (Some f);
  q_own : forall o i a, bk o m = Some (BLib i) -> aget a (m_dir m) = Some i -> exists st f, St = Some st /\ aget a st = Some f;
  q_held : forall o p i, In (o, p) (m_held m) -> bk o m = Some (BLib i) -> oget i (m_data m) = Some (Some (p_func p));
  q_res : forall k o p i, get k R = Some p -> get k (m_res m) = Some o -> bk o m = Some (BLib i) -> oget i (m_data m) = Some (Some (p_func p)) }.
Definition fresh_lab (St : smap) (a : lab) : Prop := match a with LQuiet => True | LUnlink => False | LWrite a => forall st, St = Some st -> aget a st = None end.

Lemma qi_same R St m R' m' : qi R St m -> m_dir m' = m_dir m -> m_data m' = m_data m ->
  (forall o i, bk o m' = Some (BLib i) -> bk o m = Some (BLib i) \/ exists a, aget a (m_dir m) = Some i /\ exists st f, St = Some st /\ aget a st = Some f) ->
  (forall o p i, In (o, p) (m_held m') -> bk o m' = Some (BLib i) -> oget i (m_data m) = Some (Some (p_func p))) ->
  (forall k o p i, get k R' = Some p -> get k (m_res m') = Some o -> bk o m' = Some (BLib i) -> oget i (m_data m) = Some (Some (p_func p))) -> qi R' St m'.
Proof.
  intros Q E1 E2 B H K. split; rewrite ?E1, ?E2; auto; try apply Q.
  intros o i a X D. destruct (B _ _ X) as [Y|(a' & D' & W)]; [apply (q_own _ _ _ Q _ _ _ Y D)|]. rewrite (q_inj _ _ _ Q _ _ _ D D'). exact W.
Qed.

Lemma qi_write R St St' m a d : gi R St m -> li m -> qi R St m -> (forall st, St = Some st -> aget a st = None) ->
  (St' = St \/ exists st f, St = Some st /\ d = Some f /\ St' = Some (aset a f st)) -> qi R St' (m_write a d m).
Proof.
  intros G L Q FR ST. destruct (write_frame a d m) as (F1 & F2 & F3 & _).
  assert (BK : forall x, bk x (m_write a d m) = bk x m) by (intros x; unfold bk; rewrite F3; reflexivity).
  assert (DT : forall o i, bk o m = Some (BLib i) -> oget i (m_data (m_write a d m)) = oget i (m_data m)).
  { intros o i B. destruct (write_data a d m i) as [X|[X|[_ X]]]; [exact X| |apply (li_lib _ L) in B; lia].
    destruct (q_own _ _ _ Q _ _ _ B X) as (st & f & S & A). rewrite (FR _ S) in A. discriminate. }
  assert (DIR : forall b i, aget b (m_dir (m_write a d m)) = Some i -> aget b (m_dir m) = Some i \/ (b = a /\ i = m_inodes m)).
  { intros b i. unfold m_write. destruct (aget a (m_dir m)); cbn; [auto|]. rewrite aget_set. destruct (akey_eqb b a) eqn:E; [apply AE in E as ->; intros X; injection X as <-; auto|auto]. }
  split; rewrite ?F1, ?F2.
  - intros x y i X Y. apply DIR in X as [X|[-> X]], Y as [Y|[-> Y]].
    + exact (q_inj _ _ _ Q _ _ _ X Y).
    + apply (li_dir _ L) in X. lia.
    + apply (li_dir _ L) in Y. lia.
    + reflexivity.
  - intros st' b f' S B.
    assert (Old : forall st, St = Some st -> b <> a -> aget b st = Some f' -> exists i, aget b (m_dir (m_write a d m)) = Some i /\ oget i (m_data (m_write a d m)) = Some (Some f')).
    { intros st S0 NE B0. destruct (q_st _ _ _ Q _ _ _ S0 B0) as (i & D & DA). exists i. split.
      - unfold m_write. destruct (aget a (m_dir m)); cbn; [exact D|]. rewrite aget_set. destruct (akey_eqb b a) eqn:E; [apply AE in E; congruence|exact D].
      - destruct (write_data a d m i) as [X|[X|[_ X]]]; [congruence|exfalso; apply NE; exact (q_inj _ _ _ Q _ _ _ D X)|apply (li_dir _ L) in D; lia]. }
    destruct ST as [->|(st & f & S0 & -> & ->)].
    + apply (Old st'); auto. intros ->. rewrite (FR _ S) in B. discriminate.
    + injection S as <-. rewrite aget_set in B. destruct (akey_eqb b a) eqn:E.
      * apply AE in E as ->. injection B as <-. unfold m_write. destruct (aget a (m_dir m)) as [i|] eqn:D; cbn.
        -- exists i. split; [exact D|]. rewrite oget_set, Nat.eqb_refl. reflexivity.
        -- exists (m_inodes m). rewrite aget_set, arefl, oget_set, Nat.eqb_refl. auto.
      * apply (Old st); auto. intros ->. rewrite arefl in E. discriminate.
  - intros o i b. rewrite BK. intros B D. assert (D0 : aget b (m_dir m) = Some i) by (apply DIR in D as [D|[_ ->]]; [exact D|apply (li_lib _ L) in B; lia]).
    destruct (q_own _ _ _ Q _ _ _ B D0) as (st & f & S & A). destruct ST as [->|(st' & f' & S0 & _ & ->)]; [eauto|].
    rewrite S in S0. injection S0 as <-. exists (aset a f' st). rewrite aget_set. destruct (akey_eqb b a); eauto.
  - intros o p i I. rewrite BK. intros B. rewrite (DT _ _ B). exact (q_held _ _ _ Q _ _ _ I B).
  - intros k o p i K1 K2. rewrite BK. intros B. rewrite (DT _ _ B). exact (q_res _ _ _ Q _ _ _ _ K1 K2 B).
Qed.

Lemma qi_eff R St m a R' St' m' : eff R St m a R' St' m' -> fresh_lab St a -> gi R St m -> li m -> qi R St m -> qi R' St' m'.
Proof.
  intros E FR G L Q. pose proof (gi_mi _ _ _ G) as M. destruct E; cbn [fresh_lab] in FR.
  - destruct (q_st _ _ _ Q _ _ _ H H0) as (i & D & DA). unfold m_load. rewrite D.
    destruct (insert_mi k (BLib i) m M) as (M1 & S1 & B1 & N1 & R1 & F1 & F2 & F3 & F4).
    assert (OLD : forall x b, 0 < refs x m -> bk x (m_insert k (BLib i) m) = Some b -> bk x m = Some b).
    { intros x b P X. assert (AL : bk x m <> None) by (apply (live_ref [] m x M); lia). destruct S1 as [S1 _]. destruct (S1 x (mi_lt _ _ M x AL)); congruence. }
    apply (qi_same R St m); auto.
    + intros o j X. apply B1 in X as [X|X]; [auto|]. injection X as ->. right. exists a. split; [exact D|]. exists st, f. auto.
    + intros o p j I X. rewrite F1 in I. apply (q_held _ _ _ Q _ _ _ I). apply OLD; [eapply held_refs; eauto|exact X].
    + intros k' o p j K1 K2 X. rewrite R1 in K2. rewrite get_set in K1. destruct (key_eqb k' k).
      * injection K1 as <-. injection K2 as <-. rewrite N1 in X. injection X as <-. exact DA.
      * apply (q_res _ _ _ Q _ _ _ _ K1 K2). apply OLD; [eapply get_refs; eauto|exact X].
  - destruct (insert_mi k (BJit f) m M) as (M1 & S1 & B1 & N1 & R1 & F1 & F2 & F3 & F4).
    apply (qi_same R St m); auto.
    + intros o j X. destruct (B1 _ _ X) as [Y|Y]; [auto|discriminate].
    + intros o p j I X. rewrite F1 in I. apply (q_held _ _ _ Q _ _ _ I). apply B1 in X as [X|X]; [exact X|discriminate].
    + intros k' o p j K1 K2 X. rewrite R1 in K2. rewrite get_set in K1. destruct (key_eqb k' k).
      * injection K2 as <-. rewrite N1 in X. discriminate.
      * apply (q_res _ _ _ Q _ _ _ _ K1 K2). apply B1 in X as [X|X]; [exact X|discriminate].
  - eapply qi_write; eauto.
  - eapply qi_write; eauto. right. exists st, f. auto.
  - destruct (removes_mi ks m M) as (M1 & S1 & B1 & R1 & F1 & F2 & F3 & F4). apply (qi_same R St m); auto.
    + intros o p j I X. rewrite F1 in I. eapply (q_held _ _ _ Q); eauto.
    + intros k o p j K1 K2 X. rewrite R1 in K2. rewrite H in K1. destruct (existsb _ ks); [discriminate|]. eapply (q_res _ _ _ Q); eauto.
  - tauto.
  - pose proof (gi_res _ _ _ G k) as X. rewrite H in X. destruct (get k (m_res m)) as [o|] eqn:GO; [|tauto].
    destruct (hand_mi k p m o M GO) as (M1 & S1 & B1 & R1 & F1 & F2 & F3 & F4). apply (qi_same R St m); auto.
    + intros x b. rewrite B1. auto.
    + intros x q j I. rewrite B1. intros Y. rewrite F1 in I. destruct I as [I|I]; [injection I as <- <-; eapply (q_res _ _ _ Q); eauto|eapply (q_held _ _ _ Q); eauto].
    + intros k' x q j K1. rewrite R1, B1. intros K2 Y. eapply (q_res _ _ _ Q); eauto.
  - destruct (free_mi n o p m M H) as (M1 & S1 & B1 & R1 & F1 & F2 & F3 & F4). apply (qi_same R St m); auto.
    + intros x q j I Y. rewrite F1 in I. apply (q_held _ _ _ Q x q); [|auto]. apply (Permutation_in (x, q) (Permutation_sym (del_nth_perm _ _ _ H))). right. exact I.
    + intros k x q j K1 K2 Y. rewrite R1 in K2. eapply (q_res _ _ _ Q); eauto.
Qed.
Lemma qi_effs R St m l R' St' m' : effs R St m l R' St' m' -> allq l -> gi R St m -> li m -> qi R St m -> qi R' St' m'.
Proof.
  induction 1 as [|R St m a R1 St1 m1 l R2 St2 m2 E _ IH]; intros A G L Q; [exact Q|]. apply Forall_cons_iff in A as [<- A].
  apply IH; [exact A|eapply gi_eff; eauto|eapply li_eff; eauto|eapply qi_eff; eauto; exact I].
Qed.

(** ** The start. *)
Definition ginv (R : rmap) (St : smap) (m : mem) : Prop := gi R St m /\ li m /\ qi R St m.
Lemma ginv_eff R St m a R' St' m' : eff R St m a R' St' m' -> fresh_lab St a -> ginv R St m -> ginv R' St' m'.
Proof. intros E F (G & L & Q). split; [eapply gi_eff; eauto|]. split; [eapply li_eff; eauto|eapply qi_eff; eauto]. Qed.
Lemma ginv_ext R st m R' st' : (forall k, get k R' = get k R) -> (forall a, aget a st' = aget a st) -> ginv R (Some st) m -> ginv R' (Some st') m.
Proof.
  intros E1 E2 (G & L & Q). split; [|split; [exact L|]].
  - destruct G as [A B C D]. split; auto.
    + intros k. rewrite E1. apply B.
    + intros s a f X. injection X as <-. rewrite E2. eapply D. reflexivity.
  - destruct Q as [A B C D E]. split; auto.
    + intros s a f X. injection X as <-. rewrite E2. eapply B. reflexivity.
    + intros o i a X Y. destruct (C o i a X Y) as (s & f & S & F). injection S as <-. exists st', f. rewrite E2. auto.
    + intros k o p i. rewrite E1. apply E.
Qed.
Definition mem0 : mem := mkMem [] [] 0 [] 0 [] [].
Lemma ginv_0 St : (forall st, St = Some st -> st = []) -> ginv [] St mem0.
Proof.
  intros S. split; [|split].
  - split.
    + split; [intros o X; exfalso; apply X; reflexivity|intros o; reflexivity|intros o b; discriminate|constructor].
    + intros k. exact I.
    + intros o p [].
    + intros st a f X. rewrite (S _ X). discriminate.
  - split; [constructor|discriminate|discriminate].
  - split; try discriminate. intros st a f X. rewrite (S _ X). discriminate.
Qed.
Lemma aget_cons {V} b a (v : V) l : aget b ((a, v) :: l) = if akey_eqb b a then Some v else aget b l.
Proof. unfold aget, kget. reflexivity. Qed.
Lemma get_cons {V} b a (v : V) l : get b ((a, v) :: l) = if key_eqb b a then Some v else get b l.
Proof. unfold get, kget. reflexivity. Qed.
Lemma ginv_files st : forall acc m, ginv [] (Some acc) m -> NoDup (map fst st) -> (forall a f, In (a, f) st -> aget a acc = None) ->
  exists acc', ginv [] (Some acc') (fold_left (fun m p => m_write (fst p) (Some (snd p)) m) st m) /\ forall a, aget a acc' = match aget a st with Some f => Some f | None => aget a acc end.
Proof.
  induction st as [|[a f] st IH]; intros acc m G N F; cbn [fold_left fst snd].
  - exists acc. auto.
  - cbn in N. inversion N as [|? ? NI N']; subst.
    destruct (IH (aset a f acc) (m_write a (Some f) m)) as (acc' & G' & A').
    + eapply ginv_eff; [eapply e_store; reflexivity| |exact G]. intros s X. injection X as <-. apply (F a f). left. reflexivity.
    + exact N'.
    + intros b g I. rewrite aget_set. destruct (akey_eqb b a) eqn:E; [|apply (F b g); right; exact I]. apply AE in E as ->. exfalso. apply NI. apply (in_map fst) in I. exact I.
    + exists acc'. split; [exact G'|]. intros b. rewrite A', aget_set, aget_cons. destruct (akey_eqb b a) eqn:E; [|reflexivity]. apply AE in E as ->.
      destruct (aget a st) as [g|] eqn:X; [|reflexivity]. exfalso. apply NI. apply (kget_in akey_eqb AE) in X. apply (in_map fst) in X. exact X.
Qed.
Lemma ginv_preload st pre : forall R m, ginv R (Some st) m -> NoDup (map fst st) -> incl pre st -> NoDup (map (fun p => fst (fst p)) pre) -> (forall p, In p pre -> get (fst (fst p)) R = None) ->
  exists R', ginv R' (Some st) (fold_left (fun m p => m_load (fst (fst p)) (fst p) m) pre m) /\ forall k, get k R' = match get k (pre_programs pre) with Some p => Some p | None => get k R end.
Proof.
  induction pre as [|[a f] pre IH]; intros R m G N IN D F; cbn [fold_left fst snd].
  - exists R. auto.
  - cbn in D. inversion D as [|? ? NI D']; subst. set (k := fst a) in *.
    destruct (IH (set k (mkProg k Aot f) R) (m_load k a m)) as (R' & G' & A').
    + eapply ginv_eff; [eapply e_load; [reflexivity|]|exact I|exact G]. apply (in_kget akey_eqb AE); [exact N|]. apply IN. left. reflexivity.
    + exact N.
    + intros x I. apply IN. right. exact I.
    + exact D'.
    + intros p I. rewrite get_set. destruct (key_eqb (fst (fst p)) k) eqn:E; [|apply F; right; exact I]. apply KE in E. exfalso. apply NI. rewrite <- E at 1. exact (in_map (fun p => fst (fst p)) _ _ I).
    + exists R'. split; [exact G'|]. intros k'. rewrite A', get_set. change (pre_programs ((a, f) :: pre)) with ((k, mkProg k Aot f) :: pre_programs pre). rewrite get_cons. destruct (key_eqb k' k) eqn:E; [|reflexivity]. apply KE in E as ->.
      destruct (get k (pre_programs pre)) as [g|] eqn:X; [|reflexivity]. exfalso. apply NI. apply (kget_in key_eqb KE) in X. apply (in_map fst) in X. unfold pre_programs in X. rewrite map_map in X. exact X.
Qed.
Lemma ginv_start pre st : legal_start pre st -> ginv (pre_programs pre) st (m_start pre (match st with Some st => st | None => [] end)).
Proof.
  intros [N H]. destruct st as [st|].
  - destruct H as [NS IN]. unfold m_start, m_files. fold mem0.
    destruct (ginv_files st [] mem0) as (acc & G1 & A1); [apply ginv_0; intros s X; congruence|exact NS|intros; reflexivity|].
    assert (G2 : ginv [] (Some st) (fold_left (fun m p => m_write (fst p) (Some (snd p)) m) st mem0)).
    { apply (ginv_ext [] acc); [auto|intros a; rewrite A1; destruct (aget a st); reflexivity|exact G1]. }
    destruct (ginv_preload st pre [] _ G2 NS IN N) as (R' & G3 & A3); [intros; reflexivity|].
    apply (ginv_ext R' st); [intros k; rewrite A3; destruct (get k (pre_programs pre)); reflexivity|auto|exact G3].
  - subst pre. apply ginv_0. discriminate.
Qed.

(** ** Histories. *)
Definition ginv_x (x : state * mem) : Prop := gi (s_resident (fst x)) (s_store (fst x)) (snd x) /\ li (snd x).
Lemma ginv_hact c a x x' : (forall b, a = HAct b -> fair_action b) -> hact c a x = Some x' -> ginv_x x -> ginv_x x'.
Proof.
  destruct x as [s m], x' as [s' m']. intros F H [G L]. cbn in *. destruct (hact_effs c a s m s' m' F H G) as (l & _ & E). split; cbn; [eapply gi_effs; eauto|eapply li_effs; eauto].
Qed.
Lemma ginv_hruns c x l x' : hruns c x l x' -> ginv_x x -> ginv_x x'.
Proof. induction 1; eauto using ginv_hact. Qed.
Lemma ginv_h_start now pre st en : legal_start pre st -> ginv_x (h_start now pre st en).
Proof. intros H. destruct (ginv_start pre st H) as (G & L & _). split; [exact G|exact L]. Qed.

Record calm (c : config) (x : state * mem) : Prop := {
  ca_g : ginv (s_resident (fst x)) (s_store (fst x)) (snd x);
  ca_lone : lone c (fst x);
  ca_maps : maps_ok (fst x);
  ca_jobs : jobs_ok (fst x);
  ca_ent : NoDup (map fst (s_entries (fst x)));
  ca_cmds : existsb any_clear (s_cmds (fst x)) = false }.
Lemma calm_hact c a x x' : (forall b, a = HAct b -> fair_action b) -> hact c a x = Some x' -> hquiet a -> calm c x -> calm c x'.
Proof.
  destruct x as [s m], x' as [s' m']. intros F H HQ [(G & L & Q) LO M J E C]. cbn [fst snd] in *.
  assert (X : ginv (s_resident s') (s_store s') m').
  { destruct (hact_effs c a s m s' m' F H G) as (l & SH & EF).
    split; [eapply gi_effs; eauto|]. split; [eapply li_effs; eauto|].
    destruct SH as [AQ|[(n & o & j & -> & NT & PH & GE & l' & -> & AQ)|(o & x & q & -> & CM & AC & _)]].
    - eapply qi_effs; eauto.
    - inversion EF as [|? ? ? ? R1 St1 m1 ? ? ? ? E1 E2]; subst. eapply qi_effs; [exact E2|exact AQ|eapply gi_eff; eauto|eapply li_eff; eauto|].
      eapply qi_eff; eauto. intros st S. pose proof (nth_error_In _ _ NT) as IJ.
      destruct (lo_aot _ _ LO j IJ) as [NP _]; [apply (lo_kind _ _ LO j OAot IJ PH); [discriminate|reflexivity]|].
      destruct (aget (j_key j, c_aot_opt c) st) as [f|] eqn:A; [|reflexivity]. exfalso. apply NP. exists st, f. auto.
    - rewrite CM in C. cbn in C. rewrite AC in C. discriminate. }
  destruct a as [a|n]; cbn [hact fst snd hquiet] in *.
  - destruct (act c a s) as [s1|] eqn:A; [|discriminate]. injection H as <- <-. specialize (F a eq_refl).
    assert (R1 : runs c s [a] s1) by (econstructor; eauto; constructor). destruct (jobs_inv _ _ _ _ R1 (conj J E)) as [J1 E1].
    split; cbn [fst snd]; auto.
    + eapply lone_act; eauto. apply (jo_ids _ J).
    + eapply maps_inv; eauto.
    + eapply quiet_cmds; eauto.
  - destruct (nth_error (m_held m) n) as [[o p]|]; [|discriminate]. injection H as <- <-. split; cbn [fst snd]; auto.
Qed.
Lemma calm_hruns c x l x' : hruns c x l x' -> Forall hquiet l -> calm c x -> calm c x'.
Proof. induction 1; intros Q C; [exact C|]. apply Forall_cons_iff in Q as [Q1 Q2]. eauto using calm_hact. Qed.
Lemma calm_start c now pre st en : legal_start pre st -> calm c (h_start now pre st en).
Proof.
  intros H. split; cbn [fst snd h_start].
  - exact (ginv_start pre st H).
  - split; cbn; tauto.
  - apply start_maps. unfold pre_programs. rewrite map_map. apply H.
  - apply start_jobs.
  - constructor.
  - reflexivity.
Qed.

(** Results, to be restated in HoldProps. *)
Lemma held_mapped x o p : ginv_x x -> In (o, p) (m_held (snd x)) -> mapped o (snd x).
Proof.
  intros [G _] I. destruct (gi_held _ _ _ G o p I) as (b & B & _). unfold mapped, bk in *. destruct (oget o (m_objs (snd x))); [discriminate|discriminate].
Qed.
Lemma held_jit x o p : ginv_x x -> In (o, p) (m_held (snd x)) -> p_kind p = Jit -> code_of o (snd x) = Some (p_func p).
Proof.
  intros [G _] I K. destruct (gi_held _ _ _ G o p I) as (b & B & BM). rewrite code_bk_of, B. destruct b as [f|i]; cbn in *; [destruct BM as [_ ->]; reflexivity|congruence].
Qed.
Lemma held_intact c x o p : calm c x -> In (o, p) (m_held (snd x)) -> code_of o (snd x) = Some (p_func p).
Proof.
  intros [(G & _ & Q) _ _ _ _ _] I. destruct (gi_held _ _ _ G o p I) as (b & B & BM). rewrite code_bk_of, B. destruct b as [f|i]; cbn in *; [destruct BM as [_ ->]; reflexivity|].
  rewrite (q_held _ _ _ Q _ _ _ I B). reflexivity.
Qed.
Lemma bk_back m m' o : shr m m' -> o < m_next m -> bk o m' <> None -> bk o m' = bk o m.
Proof. intros [S _] L A. destruct (S o L); congruence. Qed.
Lemma code_quiet R St m l R' St' m' o : effs R St m l R' St' m' -> gi R St m -> li m -> o < m_next m -> bk o m' <> None -> (forall a, ~ In (LWrite a) l) -> code_of o m' = code_of o m.
Proof.
  induction 1 as [|R St m a R1 St1 m1 l R2 St2 m2 E EE IH]; intros G L LT AL NW; [reflexivity|].
  destruct (gi_eff _ _ _ _ _ _ _ E G) as [G1 S1]. destruct (gi_effs _ _ _ _ _ _ _ EE G1) as [G2 S2]. pose proof (li_eff _ _ _ _ _ _ _ E G L) as L1.
  assert (LT1 : o < m_next m1) by (destruct S1; lia).
  rewrite (IH G1 L1 LT1 AL); [|intros b I; apply (NW b); right; exact I].
  assert (AL1 : bk o m1 <> None) by (rewrite <- (bk_back _ _ _ S2 LT1 AL); exact AL).
  destruct (code_eff _ _ _ _ _ _ _ o E G L LT AL1) as [X|(b & i & -> & _)]; [exact X|]. exfalso. apply (NW b). left. reflexivity.
Qed.
Lemma only_overwrite c a x x' o p : ginv_x x -> (forall b, a = HAct b -> fair_action b) -> hact c a x = Some x' -> In (o, p) (m_held (snd x)) -> In (o, p) (m_held (snd x')) ->
  code_of o (snd x') <> code_of o (snd x) ->
  exists n r j i, a = HAct (BResult n r) /\ nth_error (s_inflight (fst x)) n = Some j /\ j_phase j = Done OAot /\ j_gen j = s_gen (fst x)
    /\ aget (j_key j, c_aot_opt c) (m_dir (snd x)) = Some i /\ bk o (snd x) = Some (BLib i).
Proof.
  destruct x as [s m], x' as [s' m']. cbn [fst snd]. intros [G L] F H I I' NE. cbn [fst snd] in *.
  destruct (hact_effs c a s m s' m' F H G) as (l & SH & E).
  assert (LT : o < m_next m) by (destruct (gi_held _ _ _ G o p I) as (b & B & _); apply (mi_lt _ _ (gi_mi _ _ _ G)); congruence).
  destruct (gi_effs _ _ _ _ _ _ _ E G) as [G' S'].
  assert (AL : bk o m' <> None) by (destruct (gi_held _ _ _ G' o p I') as (b & B & _); congruence).
  destruct SH as [AQ|[(n & r & j & -> & NT & PH & GE & l' & -> & AQ)|(r & y & q & -> & _ & _ & FQ)]].
  - exfalso. apply NE. eapply code_quiet; eauto. intros b X. apply (proj1 (Forall_forall _ _) AQ) in X. discriminate.
  - exists n, r, j. inversion E as [|? ? ? ? R1 St1 m1 ? ? ? ? E1 E2]; subst. destruct (gi_eff _ _ _ _ _ _ _ E1 G) as [G1 S1]. pose proof (li_eff _ _ _ _ _ _ _ E1 G L) as L1.
    assert (LT1 : o < m_next m1) by (destruct S1; lia). destruct (gi_effs _ _ _ _ _ _ _ E2 G1) as [_ S2].
    assert (AL1 : bk o m1 <> None) by (rewrite <- (bk_back _ _ _ S2 LT1 AL); exact AL).
    assert (C2 : code_of o m' = code_of o m1) by (eapply code_quiet; eauto; intros b X; apply (proj1 (Forall_forall _ _) AQ) in X; discriminate).
    destruct (code_eff _ _ _ _ _ _ _ o E1 G L LT AL1) as [X|(b & i & Y & D & B)]; [congruence|]. injection Y as <-. exists i. repeat split; auto.
  - exfalso. apply NE. eapply code_quiet; eauto. intros b X. apply (proj1 (Forall_forall _ _) FQ) in X as [X|X]; discriminate.
Qed.
