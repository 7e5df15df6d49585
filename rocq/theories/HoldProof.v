(** Proofs for C38. *)
From Verif Require Import HoldSpec RuntimeProof RuntimeInv RuntimeInv2 RuntimeInv4 RuntimeInv7 RuntimeInv8.
Open Scope nat_scope.

Lemma NE a b : Nat.eqb a b = true <-> a = b.
Proof. apply Nat.eqb_eq. Qed.
Lemma oget_set {V} o o' (v : V) m : oget o (oset o' v m) = if o =? o' then Some v else oget o m.
Proof. apply (kget_set Nat.eqb NE). Qed.
Lemma oget_del {V} o o' (m : list (nat * V)) : oget o (odel o' m) = if o =? o' then None else oget o m.
Proof. apply (kget_del Nat.eqb NE). Qed.
Lemma aget_set {V} a a' (v : V) m : aget a (aset a' v m) = if akey_eqb a a' then Some v else aget a m.
Proof. apply (kget_set akey_eqb AE). Qed.
Lemma get_set {V} k k' (v : V) m : get k (set k' v m) = if key_eqb k k' then Some v else get k m.
Proof. apply (kget_set key_eqb KE). Qed.
Lemma get_del {V} k k' (m : list (key * V)) : get k (del k' m) = if key_eqb k k' then None else get k m.
Proof. apply (kget_del key_eqb KE). Qed.
Lemma arefl a : akey_eqb a a = true.
Proof. apply AE. reflexivity. Qed.
Lemma krefl k : key_eqb k k = true.
Proof. apply KE. reflexivity. Qed.

(** ** Reference counting. [D]: references that are held by a step in progress. *)
Definition bk (o : nat) (m : mem) : option backing := option_map fst (oget o (m_objs m)).
Definition rcn (o : nat) (m : mem) : nat := match oget o (m_objs m) with Some (_, n) => n | None => 0 end.
Definition cn (o : nat) (l : list nat) : nat := count_occ Nat.eq_dec l o.
Definition refs (o : nat) (m : mem) : nat := cn o (map snd (m_res m)) + cn o (map fst (m_held m)).
Record mi (D : list nat) (m : mem) : Prop := {
  mi_lt : forall o, bk o m <> None -> o < m_next m;
  mi_rc : forall o, rcn o m = refs o m + cn o D;
  mi_pos : forall o b, oget o (m_objs m) <> Some (b, 0);
  mi_nd : NoDup (map fst (m_res m)) }.
(** Objects keep their backing until they go. *)
Definition shr (m m' : mem) : Prop := (forall o, o < m_next m -> bk o m' = bk o m \/ bk o m' = None) /\ m_next m <= m_next m'.
Lemma shr_refl m : shr m m.
Proof. split; auto. Qed.
Lemma shr_trans m m' m'' : shr m m' -> shr m' m'' -> shr m m''.
Proof.
  intros [A B] [C D]. split; [|lia]. intros o L. destruct (C o) as [E|E]; [lia| |auto]. rewrite E. auto.
Qed.
Lemma live_ref D m o : mi D m -> (0 < refs o m + cn o D <-> bk o m <> None).
Proof.
  intros M. rewrite <- (mi_rc _ _ M). unfold rcn, bk. destruct (oget o (m_objs m)) as [[b n]|] eqn:E; cbn.
  - split; [discriminate|]. intros _. destruct n; [|lia]. exfalso. exact (mi_pos _ _ M _ _ E).
  - split; [lia|congruence].
Qed.

Lemma cn_cons o x l : cn o (x :: l) = (if Nat.eq_dec x o then 1 else 0) + cn o l.
Proof. unfold cn. cbn. destruct (Nat.eq_dec x o); reflexivity. Qed.
Lemma cn_in o l : In o l -> 0 < cn o l.
Proof. intros I. apply (count_occ_In Nat.eq_dec) in I. exact I. Qed.

Lemma release_mi o D m : mi (o :: D) m -> mi D (release o m) /\ shr m (release o m) /\ (forall x b, bk x (release o m) = Some b -> bk x m = Some b).
Proof.
  intros M. pose proof (mi_rc _ _ M o) as RC. rewrite cn_cons in RC. destruct (Nat.eq_dec o o) as [_|]; [|congruence].
  unfold release. unfold rcn in RC. destruct (oget o (m_objs m)) as [[b n]|] eqn:E; [|lia].
  assert (BK : forall x, bk x (set_objs (if (n <=? 1)%nat then odel o (m_objs m) else oset o (b, n - 1) (m_objs m)) m) = bk x m
    \/ (bk x (set_objs (if (n <=? 1)%nat then odel o (m_objs m) else oset o (b, n - 1) (m_objs m)) m) = None)).
  { intros x. unfold bk. cbn [m_objs set_objs]. destruct (n <=? 1); [rewrite oget_del|rewrite oget_set]; destruct (x =? o) eqn:X; auto.
    apply Nat.eqb_eq in X as ->. left. rewrite E. reflexivity. }
  split; [|split].
  - split.
    + intros x N. destruct (BK x) as [B|B]; [|congruence]. rewrite B in N. apply (mi_lt _ _ M x N).
    + intros x. pose proof (mi_rc _ _ M x) as RX. rewrite cn_cons in RX. unfold rcn, refs in *. cbn [m_objs set_objs m_res m_held] in *.
      destruct (Nat.leb_spec n 1); [rewrite oget_del|rewrite oget_set]; destruct (x =? o) eqn:X.
      * apply Nat.eqb_eq in X as ->. rewrite E in RX. destruct (Nat.eq_dec o o); [|congruence]. lia.
      * apply Nat.eqb_neq in X. destruct (Nat.eq_dec o x); [congruence|]. lia.
      * apply Nat.eqb_eq in X as ->. rewrite E in RX. destruct (Nat.eq_dec o o); [|congruence]. lia.
      * apply Nat.eqb_neq in X. destruct (Nat.eq_dec o x); [congruence|]. lia.
    + intros x b'. cbn [m_objs set_objs]. destruct (Nat.leb_spec n 1); [rewrite oget_del|rewrite oget_set]; destruct (x =? o); try discriminate; try apply (mi_pos _ _ M).
      intros Y. injection Y as <- Y. lia.
    + apply (mi_nd _ _ M).
  - split; [intros x _; apply BK|cbn; lia].
  - intros x b' B. destruct (BK x); congruence.
Qed.

Lemma retain_mi o D m : bk o m <> None -> mi D m -> mi (o :: D) (retain o m) /\ (forall x, bk x (retain o m) = bk x m).
Proof.
  intros L M. unfold retain. unfold bk in L. destruct (oget o (m_objs m)) as [[b n]|] eqn:E; [|cbn in L; congruence].
  assert (BK : forall x, bk x (set_objs (oset o (b, S n) (m_objs m)) m) = bk x m).
  { intros x. unfold bk. cbn [m_objs set_objs]. rewrite oget_set. destruct (x =? o) eqn:X; [|reflexivity]. apply Nat.eqb_eq in X as ->. rewrite E. reflexivity. }
  split; [|exact BK]. split.
  - intros x. rewrite BK. apply (mi_lt _ _ M).
  - intros x. pose proof (mi_rc _ _ M x) as RX. unfold rcn, refs in *. cbn [m_objs set_objs m_res m_held] in *. rewrite cn_cons, oget_set. destruct (x =? o) eqn:X.
    + apply Nat.eqb_eq in X as ->. rewrite E in RX. destruct (Nat.eq_dec o o); [|congruence]. lia.
    + apply Nat.eqb_neq in X. destruct (Nat.eq_dec o x); [congruence|]. lia.
  - intros x b'. cbn [m_objs set_objs]. rewrite oget_set. destruct (x =? o); [discriminate|apply (mi_pos _ _ M)].
  - apply (mi_nd _ _ M).
Qed.

Local Arguments cn : simpl never.
Lemma del_count k (l : list (key * nat)) o : NoDup (map fst l) ->
  cn o (map snd l) = (match get k l with Some x => if Nat.eq_dec x o then 1 else 0 | None => 0 end) + cn o (map snd (del k l)).
Proof.
  induction l as [|[k' x] l IH]; intros N; [reflexivity|]. cbn in N. inversion N as [|? ? NI N']; subst. specialize (IH N').
  assert (G : get k ((k', x) :: l) = if key_eqb k k' then Some x else get k l) by (unfold get, kget; cbn; destruct (key_eqb k k'); reflexivity).
  assert (D : del k ((k', x) :: l) = if key_eqb k k' then del k l else (k', x) :: del k l) by (unfold del, kdel; cbn; destruct (key_eqb k k'); reflexivity).
  rewrite G, D. destruct (key_eqb k k') eqn:E.
  - apply KE in E as <-. cbn. rewrite cn_cons. f_equal. apply (kget_none key_eqb KE) in NI. change (get k l = None) in NI. rewrite NI in IH. exact IH.
  - cbn. rewrite !cn_cons. lia.
Qed.
Local Arguments cn : simpl nomatch.

Lemma insert_mi k b m : mi [] m ->
  mi [] (m_insert k b m) /\ shr m (m_insert k b m) /\ (forall x b', bk x (m_insert k b m) = Some b' -> bk x m = Some b' \/ b' = b)
  /\ bk (m_next m) (m_insert k b m) = Some b /\ (forall k', get k' (m_res (m_insert k b m)) = if key_eqb k' k then Some (m_next m) else get k' (m_res m))
  /\ m_held (m_insert k b m) = m_held m /\ m_dir (m_insert k b m) = m_dir m /\ m_data (m_insert k b m) = m_data m /\ m_inodes (m_insert k b m) = m_inodes m.
Proof.
  intros M. unfold m_insert. set (o := m_next m). set (m1 := set_res _ _).
  assert (FR : oget o (m_objs m) = None).
  { destruct (oget o (m_objs m)) eqn:E; [|reflexivity]. exfalso. assert (X : bk o m <> None) by (unfold bk; rewrite E; discriminate). apply (mi_lt _ _ M) in X. unfold o in X. lia. }
  assert (B1 : forall x, bk x m1 = if x =? o then Some b else bk x m).
  { intros x. unfold bk, m1. cbn [m_objs set_objs set_mnext set_res]. rewrite oget_set. destruct (x =? o); reflexivity. }
  assert (M1 : mi (match get k (m_res m) with Some x => [x] | None => [] end) m1).
  { split.
    - intros x. rewrite B1. cbn [m1 m_next set_res set_mnext]. destruct (x =? o) eqn:X; [apply Nat.eqb_eq in X; unfold o in *; lia|]. intros L. apply (mi_lt _ _ M) in L. unfold o. lia.
    - intros x. pose proof (mi_rc _ _ M x) as RX. unfold refs, rcn in *. cbn [m1 m_objs set_objs set_mnext set_res m_res m_held] in *. rewrite oget_set. unfold set, kset. cbn [map snd].
      rewrite cn_cons. rewrite (del_count k _ x (mi_nd _ _ M)) in RX. change (kdel key_eqb k (m_res m)) with (del k (m_res m)). destruct (x =? o) eqn:X.
      + apply Nat.eqb_eq in X as ->. rewrite FR in RX. destruct (Nat.eq_dec o o); [|congruence]. destruct (get k (m_res m)) as [y|]; [rewrite cn_cons|]; cbn in *; [destruct (Nat.eq_dec y o)|]; cbn in *; lia.
      + apply Nat.eqb_neq in X. destruct (Nat.eq_dec o x); [congruence|]. destruct (get k (m_res m)) as [y|]; [rewrite cn_cons|]; cbn in *; [destruct (Nat.eq_dec y x)|]; cbn in *; lia.
    - intros x b'. cbn [m1 m_objs set_objs set_mnext set_res]. rewrite oget_set. destruct (x =? o); [discriminate|apply (mi_pos _ _ M)].
    - cbn [m1 m_res set_res]. apply (kset_nodup key_eqb KE). apply (mi_nd _ _ M). }
  assert (S1 : shr m m1).
  { split; [|cbn; lia]. intros x L. left. rewrite B1. destruct (x =? o) eqn:X; [apply Nat.eqb_eq in X; unfold o in X; lia|reflexivity]. }
  assert (R1 : forall k', get k' (m_res m1) = if key_eqb k' k then Some o else get k' (m_res m)) by (intros k'; cbn [m1 m_res set_res]; apply get_set).
  assert (KO : forall x, get k (m_res m) = Some x -> x < o).
  { intros x G. apply (mi_lt _ _ M). apply (live_ref _ _ _ M). apply (kget_in key_eqb KE) in G. apply (in_map snd) in G. apply cn_in in G. unfold refs. cbn in G. lia. }
  destruct (get k (m_res m)) as [x|] eqn:G; cbn [release_opt].
  - destruct (release_mi x [] m1 M1) as (M2 & S2 & S3).
    split; [exact M2|]. split; [exact (shr_trans _ _ _ S1 S2)|]. split; [|split].
    + intros y b' Y. apply S3 in Y. rewrite B1 in Y. destruct (y =? o); [right; congruence|auto].
    + unfold bk, release. specialize (B1 o). rewrite Nat.eqb_refl in B1. unfold bk in B1.
      specialize (KO x eq_refl). destruct (oget x (m_objs m1)) as [[bx n]|]; [|exact B1]. cbn [m_objs set_objs]. destruct (n <=? 1); [rewrite oget_del|rewrite oget_set]; (destruct (o =? x) eqn:X; [apply Nat.eqb_eq in X; lia|exact B1]).
    + assert (F : m_res (release x m1) = m_res m1 /\ m_held (release x m1) = m_held m1 /\ m_dir (release x m1) = m_dir m1 /\ m_data (release x m1) = m_data m1 /\ m_inodes (release x m1) = m_inodes m1).
      { unfold release. destruct (oget x (m_objs m1)) as [[bx n]|]; repeat split. }
      destruct F as (-> & -> & -> & -> & ->). split; [exact R1|repeat split].
  - split; [exact M1|]. split; [exact S1|]. split; [|split; [rewrite B1, Nat.eqb_refl; reflexivity|split; [exact R1|repeat split]]].
    intros y b' Y. rewrite B1 in Y. destruct (y =? o); [right; congruence|auto].
Qed.

Lemma release_frame x m : m_res (release x m) = m_res m /\ m_held (release x m) = m_held m /\ m_dir (release x m) = m_dir m /\ m_data (release x m) = m_data m /\ m_inodes (release x m) = m_inodes m.
Proof. unfold release. destruct (oget x (m_objs m)) as [[bx n]|]; repeat split. Qed.

Definition frame (m m' : mem) : Prop := m_held m' = m_held m /\ m_dir m' = m_dir m /\ m_data m' = m_data m /\ m_inodes m' = m_inodes m.

Lemma remove_mi k m : mi [] m ->
  mi [] (m_remove k m) /\ shr m (m_remove k m) /\ (forall x b', bk x (m_remove k m) = Some b' -> bk x m = Some b')
  /\ (forall k', get k' (m_res (m_remove k m)) = if key_eqb k' k then None else get k' (m_res m)) /\ frame m (m_remove k m).
Proof.
  intros M. unfold m_remove. set (m1 := set_res _ _).
  assert (M1 : mi (match get k (m_res m) with Some x => [x] | None => [] end) m1).
  { split.
    - apply (mi_lt _ _ M).
    - intros x. pose proof (mi_rc _ _ M x) as RX. unfold refs, rcn in *. cbn [m1 m_objs set_res m_res m_held] in *.
      rewrite (del_count k _ x (mi_nd _ _ M)) in RX. destruct (get k (m_res m)) as [y|]; [rewrite cn_cons|]; cbn in *; lia.
    - apply (mi_pos _ _ M).
    - cbn [m1 m_res set_res]. apply (kdel_nodup key_eqb). apply (mi_nd _ _ M). }
  assert (R1 : forall k', get k' (m_res m1) = if key_eqb k' k then None else get k' (m_res m)) by (intros k'; cbn [m1 m_res set_res]; apply get_del).
  destruct (get k (m_res m)) as [x|] eqn:G; cbn [release_opt].
  - destruct (release_mi x [] m1 M1) as (M2 & S2 & S3). destruct (release_frame x m1) as (F1 & F2 & F3 & F4 & F5).
    split; [exact M2|]. split; [exact S2|]. split; [exact S3|]. rewrite F1. split; [exact R1|]. unfold frame. rewrite F2, F3, F4, F5. repeat split.
  - split; [exact M1|]. split; [exact (shr_refl m)|]. split; [auto|]. split; [exact R1|]. repeat split.
Qed.

Lemma removes_mi ks : forall m, mi [] m ->
  let m' := fold_left (fun m k => m_remove k m) ks m in
  mi [] m' /\ shr m m' /\ (forall x b', bk x m' = Some b' -> bk x m = Some b') /\ (forall k', get k' (m_res m') = if existsb (key_eqb k') ks then None else get k' (m_res m)) /\ frame m m'.
Proof.
  induction ks as [|k ks IH]; intros m M; cbn.
  - split; [exact M|]. split; [apply shr_refl|]. repeat split; auto.
  - destruct (remove_mi k m M) as (M1 & S1 & B1 & R1 & F1). destruct (IH _ M1) as (M2 & S2 & B2 & R2 & F2).
    split; [exact M2|]. split; [eapply shr_trans; eauto|]. split; [auto|]. split.
    + intros k'. rewrite R2, R1. destruct (key_eqb k' k); cbn; [destruct (existsb _ ks); reflexivity|reflexivity].
    + unfold frame in *. destruct F1 as (E1 & E2 & E3 & E4). rewrite E1, E2, E3, E4 in F2. exact F2.
Qed.

(** ** Steps, by their effect on the resident map, the store and the memory. *)
Inductive lab := LQuiet | LWrite (a : akey) | LUnlink.
Definition rmap := list (key * program).
Definition smap := option (list (akey * func)).
Inductive eff (R : rmap) (St : smap) (m : mem) : lab -> rmap -> smap -> mem -> Prop :=
| e_load st k a f : St = Some st -> aget a st = Some f -> eff R St m LQuiet (set k (mkProg k Aot f) R) St (m_load k a m)
| e_jit k f : eff R St m LQuiet (set k (mkProg k Jit f) R) St (m_insert k (BJit f) m)
| e_spoil st a : St = Some st -> eff R St m (LWrite a) R St (m_write a None m)
| e_store st a f : St = Some st -> eff R St m (LWrite a) R (Some (aset a f st)) (m_write a (Some f) m)
| e_drop ks R' : (forall k, get k R' = if existsb (key_eqb k) ks then None else get k R) -> eff R St m LQuiet R' St (fold_left (fun m k => m_remove k m) ks m)
| e_unlink st : St = Some st -> eff R St m LUnlink R (Some []) (m_unlink st m)
| e_hand k p : get k R = Some p -> eff R St m LQuiet R St (m_hand k p m)
| e_free n o p : nth_error (m_held m) n = Some (o, p) -> eff R St m LQuiet R St (release o (set_held (del_nth n (m_held m)) m)).
Inductive effs : rmap -> smap -> mem -> list lab -> rmap -> smap -> mem -> Prop :=
| effs_nil R St m : effs R St m [] R St m
| effs_cons R St m a R1 St1 m1 l R2 St2 m2 : eff R St m a R1 St1 m1 -> effs R1 St1 m1 l R2 St2 m2 -> effs R St m (a :: l) R2 St2 m2.
Lemma effs_one R St m a R' St' m' : eff R St m a R' St' m' -> effs R St m [a] R' St' m'.
Proof. intros E. econstructor; [exact E|constructor]. Qed.
Lemma effs_app R St m l R1 St1 m1 l' R2 St2 m2 : effs R St m l R1 St1 m1 -> effs R1 St1 m1 l' R2 St2 m2 -> effs R St m (l ++ l') R2 St2 m2.
Proof. induction 1; cbn; [auto|]. intros X. econstructor; eauto. Qed.

Definition bmatch (b : backing) (p : program) : Prop := match b with BJit f => p_kind p = Jit /\ p_func p = f | BLib _ => p_kind p = Aot end.
Record gi (R : rmap) (St : smap) (m : mem) : Prop := {
  gi_mi : mi [] m;
  gi_res : forall k, match get k R, get k (m_res m) with Some p, Some o => exists b, bk o m = Some b /\ bmatch b p | None, None => True | _, _ => False end;
  gi_held : forall o p, In (o, p) (m_held m) -> exists b, bk o m = Some b /\ bmatch b p;
  gi_files : forall st a f, St = Some st -> aget a st = Some f -> aget a (m_dir m) <> None }.

Lemma get_refs k o m : get k (m_res m) = Some o -> 0 < refs o m.
Proof. intros G. apply (kget_in key_eqb KE) in G. apply (in_map snd) in G. apply cn_in in G. unfold refs. cbn in G. lia. Qed.
Lemma held_refs o p m : In (o, p) (m_held m) -> 0 < refs o m.
Proof. intros I. apply (in_map fst) in I. apply cn_in in I. unfold refs. cbn in I. lia. Qed.
(** Referenced objects survive with the same backing. *)
Lemma surv m m' o b : mi [] m -> mi [] m' -> shr m m' -> bk o m = Some b -> 0 < refs o m' -> bk o m' = Some b.
Proof.
  intros M M' [S _] B P. assert (L : o < m_next m) by (apply (mi_lt _ _ M); congruence). destruct (S o L) as [E|E]; [congruence|].
  exfalso. refine (proj1 (live_ref _ _ o M') _ E). lia.
Qed.

Lemma gi_step R St m R' St' m' : gi R St m -> mi [] m' -> shr m m' ->
  (forall x, In x (m_held m') -> In x (m_held m) \/ exists k, get k R = Some (snd x) /\ get k (m_res m) = Some (fst x)) ->
  (forall k, (get k R' = get k R /\ get k (m_res m') = get k (m_res m)) \/ (get k R' = None /\ get k (m_res m') = None)
     \/ (exists p o b, get k R' = Some p /\ get k (m_res m') = Some o /\ bk o m' = Some b /\ bmatch b p)) ->
  (forall st a f, St' = Some st -> aget a st = Some f -> aget a (m_dir m') <> None) -> gi R' St' m'.
Proof.
  intros G M' S H K F. split; [exact M'| | |exact F].
  - intros k. destruct (K k) as [[E1 E2]|[[E1 E2]|(p & o & b & E1 & E2 & E3 & E4)]].
    + pose proof (gi_res _ _ _ G k) as X. rewrite E1, E2. destruct (get k R) as [p|], (get k (m_res m)) as [o|] eqn:GO; try exact X.
      destruct X as (b & B & BM). exists b. split; [|exact BM]. apply (surv m); auto; [apply G|]. apply (get_refs k). congruence.
    + rewrite E1, E2. exact I.
    + rewrite E1, E2. eauto.
  - intros o p I. assert (X : exists b, bk o m = Some b /\ bmatch b p).
    { destruct (H _ I) as [J|(k & G1 & G2)]; [exact (gi_held _ _ _ G o p J)|]. pose proof (gi_res _ _ _ G k) as X. cbn in G1, G2. rewrite G1, G2 in X. exact X. }
    destruct X as (b & B & BM). exists b. split; [|exact BM]. apply (surv m); auto; [apply G|]. eapply held_refs; eauto.
Qed.

Lemma write_frame a d m : m_res (m_write a d m) = m_res m /\ m_held (m_write a d m) = m_held m /\ m_objs (m_write a d m) = m_objs m /\ m_next (m_write a d m) = m_next m.
Proof. unfold m_write. destruct (aget a (m_dir m)); cbn; auto. Qed.
Lemma same_objs D m m' : m_res m' = m_res m -> m_held m' = m_held m -> m_objs m' = m_objs m -> m_next m' = m_next m -> mi D m -> mi D m' /\ shr m m' /\ (forall x, bk x m' = bk x m).
Proof.
  intros E1 E2 E3 E4 M. assert (B : forall x, bk x m' = bk x m) by (intros x; unfold bk; rewrite E3; reflexivity).
  split; [|split; [split; [auto|lia]|exact B]]. split.
  - intros o. rewrite B, E4. apply M.
  - intros o. unfold rcn, refs. rewrite E1, E2, E3. apply M.
  - intros o b. rewrite E3. apply M.
  - rewrite E1. apply M.
Qed.
Lemma write_dir a d m a' : aget a' (m_dir m) <> None -> aget a' (m_dir (m_write a d m)) <> None.
Proof. unfold m_write. destruct (aget a (m_dir m)); cbn; [auto|]. intros X. rewrite aget_set. destruct (akey_eqb a' a); [discriminate|exact X]. Qed.
Lemma write_dir_self a d m : aget a (m_dir (m_write a d m)) <> None.
Proof. unfold m_write. destruct (aget a (m_dir m)) eqn:E; cbn; [congruence|]. rewrite aget_set, arefl. discriminate. Qed.

Lemma hand_mi k p m o : mi [] m -> get k (m_res m) = Some o ->
  mi [] (m_hand k p m) /\ shr m (m_hand k p m) /\ (forall x, bk x (m_hand k p m) = bk x m) /\ m_res (m_hand k p m) = m_res m /\ m_held (m_hand k p m) = (o, p) :: m_held m
  /\ m_dir (m_hand k p m) = m_dir m /\ m_data (m_hand k p m) = m_data m /\ m_inodes (m_hand k p m) = m_inodes m.
Proof.
  intros M G. unfold m_hand. rewrite G.
  assert (L : bk o m <> None) by (apply (live_ref _ _ _ M); pose proof (get_refs _ _ _ G); lia).
  destruct (retain_mi o [] m L M) as (M1 & B1).
  assert (F : m_res (retain o m) = m_res m /\ m_held (retain o m) = m_held m /\ m_dir (retain o m) = m_dir m /\ m_data (retain o m) = m_data m /\ m_inodes (retain o m) = m_inodes m /\ m_next (retain o m) = m_next m).
  { unfold retain. destruct (oget o (m_objs m)) as [[b n]|]; repeat split. }
  destruct F as (F1 & F2 & F3 & F4 & F5 & F6). cbn. rewrite F1, F3, F4, F5.
  assert (B : forall x, bk x (set_held ((o, p) :: m_held m) (retain o m)) = bk x m) by exact B1.
  split; [|split; [split; [auto|cbn; lia]|split; [exact B|repeat split]]]. split.
  - intros x. rewrite B. cbn. rewrite F6. apply M.
  - intros x. pose proof (mi_rc _ _ M1 x) as RX. unfold rcn, refs in *. cbn [m_objs set_held m_res m_held map fst] in *. rewrite F2 in RX. rewrite cn_cons in *. cbn in *. lia.
  - apply M1.
  - apply M1.
Qed.

Lemma free_mi n o p m : mi [] m -> nth_error (m_held m) n = Some (o, p) ->
  let m' := release o (set_held (del_nth n (m_held m)) m) in
  mi [] m' /\ shr m m' /\ (forall x b, bk x m' = Some b -> bk x m = Some b) /\ m_res m' = m_res m /\ m_held m' = del_nth n (m_held m) /\ m_dir m' = m_dir m /\ m_data m' = m_data m /\ m_inodes m' = m_inodes m.
Proof.
  intros M N m'. pose proof (del_nth_perm _ _ _ N) as PM.
  assert (M1 : mi [o] (set_held (del_nth n (m_held m)) m)).
  { split; try apply M. intros x. pose proof (mi_rc _ _ M x) as RX. unfold rcn, refs in *. cbn [m_objs set_held m_res m_held] in *.
    assert (E : cn x (map fst (m_held m)) = cn x (o :: map fst (del_nth n (m_held m)))).
    { apply (Permutation_map fst) in PM. unfold cn. apply (proj1 (Permutation_count_occ Nat.eq_dec _ _) PM). }
    rewrite cn_cons in *. cbn in *. lia. }
  destruct (release_mi o [] _ M1) as (M2 & S2 & B2). destruct (release_frame o (set_held (del_nth n (m_held m)) m)) as (F1 & F2 & F3 & F4 & F5).
  split; [exact M2|]. split; [exact S2|]. split; [exact B2|]. unfold m'. rewrite F1, F2, F3, F4, F5. repeat split.
Qed.

Lemma gi_eff R St m a R' St' m' : eff R St m a R' St' m' -> gi R St m -> gi R' St' m' /\ shr m m'.
Proof.
  intros E G. pose proof (gi_mi _ _ _ G) as M. destruct E.
  - pose proof (gi_files _ _ _ G _ _ _ H H0) as D. unfold m_load. destruct (aget a (m_dir m)) as [i|]; [|congruence].
    destruct (insert_mi k (BLib i) m M) as (M1 & S1 & B1 & N1 & R1 & F1 & F2 & F3 & F4). split; [|exact S1].
    apply (gi_step R St m); auto.
    + intros x I. rewrite F1 in I. auto.
    + intros k'. rewrite R1, get_set. destruct (key_eqb k' k); [right; right|left; auto]. exists (mkProg k Aot f), (m_next m), (BLib i). repeat split; auto.
    + rewrite F2. apply G.
  - destruct (insert_mi k (BJit f) m M) as (M1 & S1 & B1 & N1 & R1 & F1 & F2 & F3 & F4). split; [|exact S1].
    apply (gi_step R St m); auto.
    + intros x I. rewrite F1 in I. auto.
    + intros k'. rewrite R1, get_set. destruct (key_eqb k' k); [right; right|left; auto]. exists (mkProg k Jit f), (m_next m), (BJit f). repeat split; auto.
    + rewrite F2. apply G.
  - destruct (write_frame a None m) as (F1 & F2 & F3 & F4). destruct (same_objs [] m (m_write a None m) F1 F2 F3 F4 M) as (M1 & S1 & B1). split; [|exact S1].
    apply (gi_step R St m); auto.
    + intros x I. rewrite F2 in I. auto.
    + intros k. rewrite F1. auto.
    + intros st' a' f' E1 E2. apply write_dir. eapply (gi_files _ _ _ G); eauto.
  - destruct (write_frame a (Some f) m) as (F1 & F2 & F3 & F4). destruct (same_objs [] m (m_write a (Some f) m) F1 F2 F3 F4 M) as (M1 & S1 & B1). split; [|exact S1].
    apply (gi_step R St m); auto.
    + intros x I. rewrite F2 in I. auto.
    + intros k. rewrite F1. auto.
    + intros st' a' f' E1 E2. injection E1 as <-. rewrite aget_set in E2. destruct (akey_eqb a' a) eqn:E; [apply AE in E as ->; apply write_dir_self|]. apply write_dir. eapply (gi_files _ _ _ G); eauto.
  - destruct (removes_mi ks m M) as (M1 & S1 & B1 & R1 & F1 & F2 & F3 & F4). split; [|exact S1].
    apply (gi_step R St m); auto.
    + intros x I. rewrite F1 in I. auto.
    + intros k. rewrite R1, H. destruct (existsb _ ks); auto.
    + rewrite F2. apply G.
  - destruct (same_objs [] m (m_unlink st m) eq_refl eq_refl eq_refl eq_refl M) as (M1 & S1 & B1). split; [|exact S1].
    apply (gi_step R St m); auto. intros st' a' f' E1 E2. injection E1 as <-. discriminate.
  - pose proof (gi_res _ _ _ G k) as X. rewrite H in X. destruct (get k (m_res m)) as [o|] eqn:GO; [|tauto].
    destruct (hand_mi k p m o M GO) as (M1 & S1 & B1 & R1 & F1 & F2 & F3 & F4). split; [|exact S1].
    apply (gi_step R St m); auto.
    + intros x I. rewrite F1 in I. destruct I as [<-|I]; [right; exists k; auto|auto].
    + intros k'. rewrite R1. auto.
    + rewrite F2. apply G.
  - destruct (free_mi n o p m M H) as (M1 & S1 & B1 & R1 & F1 & F2 & F3 & F4). split; [|exact S1].
    apply (gi_step R St m); auto.
    + intros x I. rewrite F1 in I. left. apply (Permutation_in x (Permutation_sym (del_nth_perm _ _ _ H))). right. exact I.
    + intros k. rewrite R1. auto.
    + rewrite F2. apply G.
Qed.
Lemma gi_effs R St m l R' St' m' : effs R St m l R' St' m' -> gi R St m -> gi R' St' m' /\ shr m m'.
Proof.
  induction 1 as [|R St m a R1 St1 m1 l R2 St2 m2 E _ IH]; intros G; [split; [exact G|apply shr_refl]|].
  destruct (gi_eff _ _ _ _ _ _ _ E G) as [G1 S1]. destruct (IH G1) as [G2 S2]. split; [exact G2|eapply shr_trans; eauto].
Qed.
