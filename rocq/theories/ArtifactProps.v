(** Claims C37 (the artifact store) and C39 (preloading), for every history of calls and every outcome of
    the file operations. *)
From Verif Require Import ArtifactModel ArtifactSpec ArtifactProof RuntimeProof RuntimeProps.
Open Scope Z_scope.

(** * C37: the store is a map. *)
(** Loading gives the manifest and path of the most recent successful store of exactly that key, if no
    delete or clear came later; nothing otherwise. *)
Theorem C37_load l k m b : wf_ops l -> latest k l m b -> store_load k (ops_apply l store_new) = Some (mkStored m (artifact_path k)).
Proof. intros W H. rewrite (so_load _ _ (store_inv l W)). apply latest_run in H as (u & ->). reflexivity. Qed.
Print Assumptions C37_load.
Theorem C37_load_none l k : wf_ops l -> (forall m b, ~ latest k l m b) -> store_load k (ops_apply l store_new) = None.
Proof.
  intros W H. rewrite (so_load _ _ (store_inv l W)). destruct (run_latest k l) as [[[m b] u]|] eqn:E; [|reflexivity]. apply run_latest_spec in E. destruct (H _ _ E).
Qed.
Print Assumptions C37_load_none.
(** The file holds the bytes of that store, unless a later store of the key failed half-way. *)
Theorem C37_content l k m b : wf_ops l -> wf_key k -> latest_undamaged k l m b -> fs_read (artifact_path k) (sto_fs (ops_apply l store_new)) = Some b.
Proof. intros W K H. apply (so_file _ _ (store_inv l W) k m b K). apply latest_undamaged_run. exact H. Qed.
Print Assumptions C37_content.
(** Different keys never share a file. *)
Theorem C37_distinct a b : wf_key a -> wf_key b -> a <> b -> artifact_path a <> artifact_path b.
Proof. intros A B N E. apply N, artifact_path_inj; assumption. Qed.
Print Assumptions C37_distinct.
(** Delete and clear remove the files: when no file operation failed, a file of the directory belongs to a
    key that can be loaded. *)
Theorem C37_removed l p d : wf_ops l -> Forall calm l -> fs_read p (sto_fs (ops_apply l store_new)) = Some d ->
  exists k m b, p = artifact_path k /\ latest k l m b.
Proof.
  intros W C R. pose proof (store_inv l W) as I. destruct (so_gone _ _ I C p d R) as (k & a & H & ->).
  apply (in_kget _ artifact_key_eqb_eq k a _ (so_nodup _ _ I)) in H. fold (store_load k (ops_apply l store_new)) in H. rewrite (so_load _ _ I) in H.
  destruct (run_latest k l) as [[[m b] u]|] eqn:E; [|discriminate]. exists k, m, b. split; [reflexivity|]. eapply run_latest_spec; eauto.
Qed.
Print Assumptions C37_removed.
(** Enumeration gives each loadable artifact once. *)
Theorem C37_load_all l : wf_ops l -> NoDup (map fst (store_load_all (ops_apply l store_new))) /\
  forall k a, In (k, a) (store_load_all (ops_apply l store_new)) <-> store_load k (ops_apply l store_new) = Some a.
Proof.
  intros W. pose proof (store_inv l W) as I. split; [exact (so_nodup _ _ I)|]. intros k a. split.
  - apply (in_kget _ artifact_key_eqb_eq), (so_nodup _ _ I).
  - apply (kget_in _ artifact_key_eqb_eq).
Qed.
Print Assumptions C37_load_all.

Definition ak1 : artifact_key := mkAKey (11, 3) BLlvm OptDefault.
Definition ak2 : artifact_key := mkAKey (11, 3) BLlvm OptNone.
Definition man (k : artifact_key) (n : Z) : manifest := mkManifest k "f" 3 n 42 7.
Definition hist : list op :=
  [OStore ak1 (man ak1 2) [1; 2] WOk; OStore ak2 (man ak2 1) [9] WOk; OStore ak1 (man ak1 3) [3; 4; 5] WOk; OStore ak1 (man ak1 1) [6] WOpen; ODelete ak2 true].
Lemma wf_ak1 : wf_key ak1. Proof. unfold wf_key. cbn. lia. Qed.
Lemma wf_ak2 : wf_key ak2. Proof. unfold wf_key. cbn. lia. Qed.
Lemma hist_wf : wf_ops hist.
Proof. intros o k I. repeat (destruct I as [<-|I]; [intros H; injection H as <-; first [exact wf_ak1|exact wf_ak2]|]). destruct I. Qed.
Example C37_ex_latest : latest_undamaged ak1 hist (man ak1 3) [3; 4; 5].
Proof.
  exists [OStore ak1 (man ak1 2) [1; 2] WOk; OStore ak2 (man ak2 1) [9] WOk], [OStore ak1 (man ak1 1) [6] WOpen; ODelete ak2 true].
  split; [reflexivity|]. intros o [<-|[<-|[]]]; cbn; split; try tauto; [intros [_ H]; discriminate|intros H; discriminate].
Qed.
Example C37_ex : fs_read (artifact_path ak1) (sto_fs (ops_apply hist store_new)) = Some [3; 4; 5] /\
  fs_read (artifact_path ak2) (sto_fs (ops_apply hist store_new)) = None /\ Forall calm hist /\
  artifact_path (mkAKey (2 ^ 255 + 10, 3) BLlvm OptDefault) = "800000000000000000000000000000000000000000000000000000000000000a_SPURIOUS_DRAGON_Llvm_Default.so"%string.
Proof. split; [|split; [|split]]; [vm_compute; reflexivity..| |vm_compute; reflexivity]. repeat constructor. Qed.

(** Finding: a store that fails half-way leaves the previous manifest pointing at a file with other
    contents, and `load` keeps returning it. *)
Theorem C37_damaged_refuted : exists l k m b d, wf_ops l /\ wf_key k /\ latest k l m b /\
  store_load k (ops_apply l store_new) = Some (mkStored m (artifact_path k)) /\ fs_read (artifact_path k) (sto_fs (ops_apply l store_new)) = Some d /\ d <> b.
Proof.
  exists [OStore ak1 (man ak1 3) [3; 4; 5] WOk; OStore ak1 (man ak1 2) [6; 7] (WShort 1)], ak1, (man ak1 3), [3; 4; 5], [6].
  assert (W : wf_ops [OStore ak1 (man ak1 3) [3; 4; 5] WOk; OStore ak1 (man ak1 2) [6; 7] (WShort 1)]).
  { intros o k I. repeat (destruct I as [<-|I]; [intros H; injection H as <-; exact wf_ak1|]). destruct I. }
  assert (L : latest ak1 [OStore ak1 (man ak1 3) [3; 4; 5] WOk; OStore ak1 (man ak1 2) [6; 7] (WShort 1)] (man ak1 3) [3; 4; 5]).
  { exists [], [OStore ak1 (man ak1 2) [6; 7] (WShort 1)]. split; [reflexivity|]. intros o [<-|[]] [_ H]. discriminate. }
  split; [exact W|]. split; [exact wf_ak1|]. split; [exact L|]. split; [apply (C37_load _ _ _ _ W L)|]. split; [vm_compute; reflexivity|discriminate].
Qed.
Print Assumptions C37_damaged_refuted.

(** * C39: preloading. [arts] is whatever `load_all` returned, in any order. *)
(** At most one program per runtime key. *)
Theorem C39_once load arts : NoDup (map fst (preload_aot load arts)).
Proof. destruct arts; [apply preload_nodup|constructor]. Qed.
Print Assumptions C39_once.
(** Exactly the first loadable artifact of every key is installed: failures are skipped and cost no other
    key, and no other artifact of the same key, its program. *)
Theorem C39_first load arts k p : In (k, p) (preload_aot load (Some arts)) <-> picks load arts k p.
Proof. cbn. rewrite preload_picks. cbn. tauto. Qed.
Print Assumptions C39_first.
Theorem C39_none_lost load arts a s p : In (a, s) arts -> load a s = Some p -> exists q, In (a_run a, q) (preload_aot load (Some arts)).
Proof.
  intros I L. enough (X : exists q, picks load arts (a_run a) q) by (destruct X as (q & X); exists q; apply C39_first; exact X).
  revert a s p I L. induction arts as [|[a0 s0] arts IH]; intros a s p I L; [destruct I|].
  destruct (load a0 s0) as [q|] eqn:L0.
  - destruct (key_eqb (a_run a0) (a_run a)) eqn:E.
    + apply KE in E. exists q, [], a0, s0, arts. repeat split; auto. intros a' s' [].
    + destruct I as [I|I]; [injection I as -> ->; rewrite (eqb_refl _ KE) in E; discriminate|]. destruct (IH _ _ _ I L) as (q' & l1 & a1 & s1 & l2 & -> & K & Ld & F).
      exists q', ((a0, s0) :: l1), a1, s1, l2. repeat split; auto. intros a' s' [I'|I'] K'; [injection I' as -> ->|eapply F; eauto]. rewrite K', (eqb_refl _ KE) in E. discriminate.
  - destruct I as [I|I]; [injection I as -> ->; congruence|]. destruct (IH _ _ _ I L) as (q' & l1 & a1 & s1 & l2 & -> & K & Ld & F).
    exists q', ((a0, s0) :: l1), a1, s1, l2. repeat split; auto. intros a' s' [I'|I'] K'; [injection I' as -> ->; exact L0|eapply F; eauto].
Qed.
Print Assumptions C39_none_lost.
(** What is installed under a key is the code found in the file of an artifact with that code hash and
    hardfork, so the preloaded map is one the runtime theorems (C27) start from. Of the artifact key's
    fields only these two are honoured: see the refutation below. *)
Theorem C39_identity_partial dl fs arts k p : In (k, p) (preload_aot (load_artifact dl fs) arts) ->
  p_key p = k /\ p_kind p = Aot /\
  exists l a s bytes f, arts = Some l /\ In (a, s) l /\ a_run a = k /\ fs_read (st_path s) fs = Some bytes /\ dl bytes (m_symbol (st_manifest s)) = Some f /\ p_func p = f.
Proof.
  destruct arts as [l|]; [|intros []]. intros I. apply C39_first in I as (l1 & a & s & l2 & -> & K & L & _). unfold load_artifact in L.
  destruct (fs_read (st_path s) fs) as [bytes|] eqn:R; [|discriminate]. destruct (dl bytes _) as [f|] eqn:D; [|discriminate]. injection L as <-. cbn.
  split; [exact K|]. split; [reflexivity|]. exists (l1 ++ (a, s) :: l2), a, s, bytes, f. split; [reflexivity|]. split; [apply in_app_iff; right; left; reflexivity|]. auto.
Qed.
Print Assumptions C39_identity_partial.
Theorem C39_preload_ok dl fs arts : preload_ok (preload_aot (load_artifact dl fs) arts).
Proof. split; [apply C39_once|]. intros k p I. apply C39_identity_partial in I. apply I. Qed.
Print Assumptions C39_preload_ok.

Definition dl_ex (bytes : list Z) (sym : string) : option func := match bytes with [] => None | _ => Some (mkFunc bytes 3 None) end.
Definition ak3 : artifact_key := mkAKey (12, 3) BLlvm OptDefault.
(** Four artifacts: one does not load, two have the same runtime key. *)
Definition store_ex : store := ops_apply [OStore ak1 (man ak1 0) [] WOk; OStore ak3 (man ak3 1) [5] WOk; OStore ak2 (man ak2 1) [6] WOk; OStore (mkAKey (12, 3) BAuto OptLess) (man ak3 1) [7] WOk] store_new.
Example C39_ex : preload_aot (load_artifact dl_ex (sto_fs store_ex)) (Some (store_load_all store_ex)) =
  [((12, 3), mkProg (12, 3) Aot (mkFunc [7] 3 None)); ((11, 3), mkProg (11, 3) Aot (mkFunc [6] 3 None))].
Proof. vm_compute. reflexivity. Qed.

(** Finding: whatever the configured level, an artifact of another level or backend is installed. *)
Definition matches (o : opt_level) (a : artifact_key) : Prop := a_backend a = BLlvm /\ a_opt a = o.
Theorem C39_identity_refuted : exists dl s arts configured k p, Permutation arts (store_load_all s) /\
  In (k, p) (preload_aot (load_artifact dl (sto_fs s)) (Some arts)) /\ (forall a st, In (a, st) arts -> ~ matches configured a).
Proof.
  exists dl_ex, (ops_apply [OStore ak2 (man ak2 1) [6] WOk] store_new), (store_load_all (ops_apply [OStore ak2 (man ak2 1) [6] WOk] store_new)), OptDefault, (11, 3), (mkProg (11, 3) Aot (mkFunc [6] 3 None)).
  split; [apply Permutation_refl|]. split; [vm_compute; left; reflexivity|]. intros a st I. cbn in I. destruct I as [I|[]]. injection I as <- _. intros [_ H]. discriminate.
Qed.
Print Assumptions C39_identity_refuted.
