(** Proofs about the artifact store: the file name is injective, the store refines a map. *)
From Verif Require Import ArtifactModel ArtifactSpec RuntimeProof.
Open Scope Z_scope.
Local Arguments kset : simpl never.
Local Arguments kdel : simpl never.
Local Arguments kget : simpl never.

Lemma artifact_key_eqb_eq a b : artifact_key_eqb a b = true <-> a = b.
Proof.
  unfold artifact_key_eqb. destruct a as [k1 b1 o1], b as [k2 b2 o2]. cbn. rewrite !andb_true_iff, key_eqb_eq. split.
  - intros [[-> B] O]. destruct b1, b2, o1, o2; try discriminate; reflexivity.
  - intros H. injection H as -> -> ->. destruct b2, o2; auto.
Qed.
Notation FE := artifact_key_eqb_eq.

(** ** File names. *)
Fixpoint chars (s : string) : list ascii := match s with EmptyString => [] | String c s => c :: chars s end.
Lemma chars_app a b : chars (a ++ b)%string = chars a ++ chars b.
Proof. induction a as [|c a IH]; cbn; [reflexivity|]. f_equal. exact IH. Qed.
Lemma chars_inj a b : chars a = chars b -> a = b.
Proof. revert b. induction a as [|c a IH]; intros [|d b] H; cbn in H; try discriminate; [reflexivity|]. injection H as -> H. f_equal. auto. Qed.

Lemma hex_digit_inj a b : 0 <= a < 16 -> 0 <= b < 16 -> hex_digit a = hex_digit b -> a = b.
Proof.
  intros A B. assert (EA : a = 0 \/ a = 1 \/ a = 2 \/ a = 3 \/ a = 4 \/ a = 5 \/ a = 6 \/ a = 7 \/ a = 8 \/ a = 9 \/ a = 10 \/ a = 11 \/ a = 12 \/ a = 13 \/ a = 14 \/ a = 15) by lia.
  assert (EB : b = 0 \/ b = 1 \/ b = 2 \/ b = 3 \/ b = 4 \/ b = 5 \/ b = 6 \/ b = 7 \/ b = 8 \/ b = 9 \/ b = 10 \/ b = 11 \/ b = 12 \/ b = 13 \/ b = 14 \/ b = 15) by lia.
  clear A B. repeat (destruct EA as [->|EA]; [repeat (destruct EB as [->|EB]; [first [intros _; reflexivity|intros H; discriminate H]|]); subst; first [intros _; reflexivity|intros H; discriminate H]|]).
  subst. repeat (destruct EB as [->|EB]; [first [intros _; reflexivity|intros H; discriminate H]|]); subst; first [intros _; reflexivity|intros H; discriminate H].
Qed.
Lemma hex_digits_app n : forall x acc, chars (hex_digits n x acc) = chars (hex_digits n x "") ++ chars acc.
Proof.
  induction n as [|n IH]; intros x acc; cbn [hex_digits]; [reflexivity|]. rewrite IH, (IH (x / 16) (String _ "")). cbn. rewrite <- app_assoc. reflexivity.
Qed.
Lemma hex_digits_len n : forall x, List.length (chars (hex_digits n x "")) = n.
Proof.
  induction n as [|n IH]; intros x; cbn [hex_digits]; [reflexivity|]. rewrite hex_digits_app, app_length, IH. cbn. lia.
Qed.
Lemma app_inj_len {A} (a b c d : list A) : List.length a = List.length c -> a ++ b = c ++ d -> a = c /\ b = d.
Proof.
  revert c. induction a as [|x a IH]; intros [|y c] L H; cbn in *; try discriminate; [auto|]. injection H as -> H. destruct (IH c) as [-> ->]; auto.
Qed.
Lemma hex_digits_inj n : forall x y, 0 <= x < 16 ^ Z.of_nat n -> 0 <= y < 16 ^ Z.of_nat n -> hex_digits n x "" = hex_digits n y "" -> x = y.
Proof.
  induction n as [|n IH]; intros x y X Y H; [cbn in X, Y; lia|]. apply (f_equal chars) in H. cbn [hex_digits] in H.
  rewrite (hex_digits_app n (x / 16)), (hex_digits_app n (y / 16)) in H. apply app_inj_len in H as [H1 H2]; [|rewrite !hex_digits_len; reflexivity].
  rewrite Nat2Z.inj_succ, Z.pow_succ_r in X, Y by lia. apply chars_inj, IH in H1; [|split; [apply Z.div_pos; lia|apply Z.div_lt_upper_bound; lia]..].
  injection H2 as H2. apply hex_digit_inj in H2; [|apply Z.mod_pos_bound; lia..]. rewrite (Z.div_mod x 16), (Z.div_mod y 16) by lia. congruence.
Qed.

Lemma spec_name_inj a b : 0 <= a < 15 -> 0 <= b < 15 -> spec_name a = spec_name b -> a = b.
Proof.
  intros A B H.
  assert (C : forallb (fun i => forallb (fun j => implb (String.eqb (nth i spec_names ""%string) (nth j spec_names ""%string)) (Nat.eqb i j)) (seq 0 15)) (seq 0 15) = true) by (vm_compute; reflexivity).
  rewrite forallb_forall in C. specialize (C (Z.to_nat a)). rewrite in_seq in C. specialize (C ltac:(lia)). rewrite forallb_forall in C.
  specialize (C (Z.to_nat b)). rewrite in_seq in C. specialize (C ltac:(lia)). unfold spec_name in H. rewrite H, String.eqb_refl in C. cbn in C. apply Nat.eqb_eq in C. lia.
Qed.

(** The tails "_backend_level.so", read backwards: none is a prefix of another. *)
Definition tail (b : backend) (o : opt_level) : list ascii := rev (chars ("_" ++ backend_name b ++ "_" ++ opt_name o ++ ".so")%string).
Lemma tail_inj b o b' o' x y : tail b o ++ x = tail b' o' ++ y -> b = b' /\ o = o' /\ x = y.
Proof.
  destruct b, o, b', o'; intros H; first [split; [reflexivity|]; split; [reflexivity|]; apply app_inv_head in H; exact H | exfalso; vm_compute in H; discriminate H].
Qed.
Theorem artifact_path_inj a b : wf_key a -> wf_key b -> artifact_path a = artifact_path b -> a = b.
Proof.
  intros [HA SA] [HB SB] H. apply (f_equal chars) in H. unfold artifact_path in H.
  rewrite chars_app, (chars_app (hex_digits 64 (fst (a_run b)) "")) in H.
  apply app_inj_len in H as [H1 H2]; [|rewrite !hex_digits_len; reflexivity].
  apply chars_inj, hex_digits_inj in H1; [|change (16 ^ Z.of_nat 64) with (2 ^ 256); assumption..].
  rewrite chars_app, (chars_app "_" (spec_name (snd (a_run b)) ++ _)%string) in H2. apply app_inv_head in H2.
  rewrite chars_app, (chars_app (spec_name (snd (a_run b)))) in H2. apply (f_equal (@rev ascii)) in H2. rewrite !rev_app_distr in H2.
  apply tail_inj in H2 as (B & O & S). apply (f_equal (@rev ascii)) in S. rewrite !rev_involutive in S. apply chars_inj, spec_name_inj in S; [|assumption..].
  destruct a as [[h s] ba oa], b as [[h' s'] bb ob]. cbn in *. congruence.
Qed.

Local Arguments artifact_path : simpl never.
Local Opaque artifact_path.

(** ** The file system. *)
Notation SE := String.eqb_eq.
Notation NE := Nat.eqb_eq.
Record fs_ok (fs : fsys) : Prop := {
  fo_lt : forall p i, kget String.eqb p (fs_dir fs) = Some i -> (i < fs_next fs)%nat;
  fo_inj : forall p q i, kget String.eqb p (fs_dir fs) = Some i -> kget String.eqb q (fs_dir fs) = Some i -> p = q }.
Definition written (r : wresult) (b : list Z) : option (list Z) := match r with WOk => Some b | WOpen => None | WShort n => Some (firstn n b) end.
Lemma fs_write_ok r p b fs : fs_ok fs -> fs_ok (snd (fs_write r p b fs)).
Proof.
  intros [L J]. destruct r; cbn; [|split; assumption|];
    (destruct (kget String.eqb p (fs_dir fs)) eqn:E; cbn; [split; assumption|]; split; cbn;
     [intros q i; rewrite (kget_set _ SE); destruct (String.eqb q p); [intros H; injection H as <-; lia|intros H; apply L in H; lia]
     |intros q q' i; rewrite !(kget_set _ SE); destruct (String.eqb q p) eqn:E1, (String.eqb q' p) eqn:E2; try apply SE in E1; try apply SE in E2; subst; auto; intros H1 H2;
      [injection H1 as <-; apply L in H2; lia|injection H2 as <-; apply L in H1; lia|eapply J; eauto]]).
Qed.
Lemma fs_read_write r p b q fs : fs_ok fs -> fs_read q (snd (fs_write r p b fs)) = if String.eqb q p then match written r b with Some d => Some d | None => fs_read q fs end else fs_read q fs.
Proof.
  intros [L J]. destruct r; cbn [fs_write snd written]; [|destruct (String.eqb q p); reflexivity|];
    (unfold fs_read; destruct (kget String.eqb p (fs_dir fs)) as [i|] eqn:E; cbn [fs_dir fs_data];
     [destruct (String.eqb q p) eqn:Q;
      [apply SE in Q; subst q; rewrite E, (kget_set _ NE), Nat.eqb_refl; reflexivity
      |destruct (kget String.eqb q (fs_dir fs)) as [i'|] eqn:E'; [|reflexivity]; rewrite (kget_set _ NE); destruct (Nat.eqb i' i) eqn:I; [apply NE in I; subst; rewrite (J _ _ _ E E'), String.eqb_refl in Q; discriminate|reflexivity]]
     |rewrite (kget_set _ SE); destruct (String.eqb q p) eqn:Q; [rewrite (kget_set _ NE), Nat.eqb_refl; reflexivity|];
      destruct (kget String.eqb q (fs_dir fs)) as [i'|] eqn:E'; [|reflexivity]; rewrite (kget_set _ NE); apply L in E'; destruct (Nat.eqb i' (fs_next fs)) eqn:I; [apply NE in I; lia|reflexivity]]).
Qed.
Lemma fs_remove_ok ok p fs : fs_ok fs -> fs_ok (fs_remove ok p fs).
Proof.
  intros [L J]. destruct ok; cbn; [|split; assumption]. split; cbn.
  - intros q i. rewrite (kget_del _ SE). destruct (String.eqb q p); [discriminate|apply L].
  - intros q q' i. rewrite !(kget_del _ SE). destruct (String.eqb q p), (String.eqb q' p); try discriminate. apply J.
Qed.
Lemma fs_read_remove ok p q fs : fs_read q (fs_remove ok p fs) = if ok && String.eqb q p then None else fs_read q fs.
Proof. destruct ok; cbn; [|reflexivity]. unfold fs_read. cbn. rewrite (kget_del _ SE). destruct (String.eqb q p); reflexivity. Qed.
Lemma fs_read_fold oks paths : forall q fs, fs_read q (fold_left (fun fs p => fs_remove (oks p) p fs) paths fs) =
  if existsb (fun p => oks p && String.eqb q p) paths then None else fs_read q fs.
Proof.
  induction paths as [|p paths IH]; intros q fs; cbn; [reflexivity|]. rewrite IH, fs_read_remove. destruct (oks p && String.eqb q p); cbn; [destruct (existsb _ _); reflexivity|reflexivity].
Qed.
Lemma fs_fold_ok oks paths : forall fs, fs_ok fs -> fs_ok (fold_left (fun fs p => fs_remove (oks p) p fs) paths fs).
Proof. induction paths as [|p paths IH]; intros fs H; cbn; [exact H|]. apply IH, fs_remove_ok, H. Qed.

(** ** The store. *)
(** Executable version of the history specification. *)
Definition step_latest (k : artifact_key) (acc : option (manifest * list Z * bool)) (o : op) : option (manifest * list Z * bool) :=
  match o with
  | OStore k' m b r =>
      if artifact_key_eqb k' k then match r with WOk => Some (m, b, true) | WOpen => acc | WShort _ => option_map (fun x => (fst x, false)) acc end else acc
  | ODelete k' _ => if artifact_key_eqb k' k then None else acc
  | OClear _ => None
  end.
Definition run_latest (k : artifact_key) (l : list op) : option (manifest * list Z * bool) := fold_left (step_latest k) l None.
Lemma run_latest_snoc k l o : run_latest k (l ++ [o]) = step_latest k (run_latest k l) o.
Proof. unfold run_latest. rewrite fold_left_app. reflexivity. Qed.
Lemma ops_snoc l o s : ops_apply (l ++ [o]) s = op_apply o (ops_apply l s).
Proof. unfold ops_apply. rewrite fold_left_app. reflexivity. Qed.

Lemma run_latest_skip k l2 : forall acc, (forall o, In o l2 -> ~ touches k o) ->
  exists u, fold_left (step_latest k) l2 acc = option_map (fun x => (fst x, snd x && u)) acc /\ ((forall o, In o l2 -> ~ damages k o) -> u = true).
Proof.
  induction l2 as [|o l2 IH]; intros acc H; cbn.
  - exists true. split; [destruct acc as [[x u]|]; cbn; rewrite ?andb_true_r; reflexivity|reflexivity].
  - assert (S : exists u0, step_latest k acc o = option_map (fun x => (fst x, snd x && u0)) acc /\ (~ damages k o -> u0 = true)).
    { assert (T : exists u0, acc = option_map (fun x => (fst x, snd x && u0)) acc /\ (~ damages k o -> u0 = true)) by (exists true; split; [destruct acc as [[x u]|]; cbn; rewrite ?andb_true_r|]; reflexivity).
      specialize (H o (or_introl eq_refl)). destruct o as [k' m b r|k' ok|oks]; cbn in *; [| |tauto].
      - destruct (artifact_key_eqb k' k) eqn:E; [|exact T]. apply FE in E. subst k'. destruct r; [tauto|exact T|]. exists false. split; [destruct acc as [[x u]|]; cbn; rewrite ?andb_false_r; reflexivity|tauto].
      - destruct (artifact_key_eqb k' k) eqn:E; [|exact T]. apply FE in E. tauto. }
    destruct S as (u0 & -> & U0). destruct (IH (option_map (fun x => (fst x, snd x && u0)) acc)) as (u & -> & U); [intros o' I; apply H; right; exact I|].
    exists (u0 && u). split; [destruct acc as [[x v]|]; cbn; rewrite ?andb_assoc; reflexivity|]. intros D. rewrite U0, U; auto.
Qed.
Lemma latest_run k l m b : latest k l m b -> exists u, run_latest k l = Some (m, b, u).
Proof.
  intros (l1 & l2 & -> & H). unfold run_latest. rewrite fold_left_app. cbn [fold_left step_latest]. rewrite (proj2 (FE k k) eq_refl).
  destruct (run_latest_skip k l2 (Some (m, b, true)) H) as (u & -> & _). cbn. eauto.
Qed.
Lemma latest_undamaged_run k l m b : latest_undamaged k l m b -> run_latest k l = Some (m, b, true).
Proof.
  intros (l1 & l2 & -> & H). unfold run_latest. rewrite fold_left_app. cbn [fold_left step_latest]. rewrite (proj2 (FE k k) eq_refl).
  destruct (run_latest_skip k l2 (Some (m, b, true))) as (u & -> & U); [intros o I; apply (H o I)|]. rewrite U by (intros o I; apply (H o I)). reflexivity.
Qed.
Lemma run_latest_spec k l m b u : run_latest k l = Some (m, b, u) -> latest k l m b.
Proof.
  revert m b u. induction l as [|o l IH] using rev_ind; intros m b u; [discriminate|]. rewrite run_latest_snoc.
  assert (Keep : forall u', ~ touches k o -> run_latest k l = Some (m, b, u') -> latest k (l ++ [o]) m b).
  { intros u' NT E. destruct (IH _ _ _ E) as (l1 & l2 & -> & H). exists l1, (l2 ++ [o]). split; [rewrite <- app_assoc; reflexivity|].
    intros o' I. apply in_app_iff in I as [I|[<-|[]]]; auto. }
  destruct o as [k' m' b' r|k' ok|oks]; cbn [step_latest].
  - destruct (artifact_key_eqb k' k) eqn:E.
    + apply FE in E. subst k'. destruct r.
      * intros H. injection H as <- <- <-. exists l, []. split; [reflexivity|intros o []].
      * apply Keep. cbn. intros [_ H]. discriminate.
      * destruct (run_latest k l) as [[[m0 b0] u0]|] eqn:R; [|discriminate]. cbn. intros H. injection H as -> -> <-. apply (Keep u0); [|reflexivity]. cbn. intros [_ H]. discriminate.
    + apply Keep. cbn. intros [H _]. apply FE in H. congruence.
  - destruct (artifact_key_eqb k' k) eqn:E; [discriminate|]. apply Keep. cbn. intros H. apply FE in H. congruence.
  - discriminate.
Qed.

Record store_ok (l : list op) (s : store) : Prop := {
  so_fs : fs_ok (sto_fs s);
  so_nodup : NoDup (map fst (sto_index s));
  so_wf : forall k a, In (k, a) (sto_index s) -> wf_key k;
  so_load : forall k, store_load k s = option_map (fun x => mkStored (fst (fst x)) (artifact_path k)) (run_latest k l);
  so_file : forall k m b, wf_key k -> run_latest k l = Some (m, b, true) -> fs_read (artifact_path k) (sto_fs s) = Some b;
  so_gone : Forall calm l -> forall p d, fs_read p (sto_fs s) = Some d -> exists k a, In (k, a) (sto_index s) /\ p = artifact_path k }.

Lemma wf_snoc l o : wf_ops (l ++ [o]) -> wf_ops l /\ forall k, op_key o = Some k -> wf_key k.
Proof.
  intros H. split; [intros o' k I; apply H; apply in_app_iff; auto|]. intros k. apply H. apply in_app_iff. right. left. reflexivity.
Qed.

Lemma store_inv l : wf_ops l -> store_ok l (ops_apply l store_new).
Proof.
  induction l as [|o l IH] using rev_ind; intros W.
  { split; cbn; try constructor; try discriminate; try tauto; try reflexivity. }
  apply wf_snoc in W as [W WO]. specialize (IH W). rewrite ops_snoc. set (s := ops_apply l store_new) in *. destruct IH as [F N WF L C G].
  assert (IN : forall k a, In (k, a) (sto_index s) -> a = mkStored (st_manifest a) (artifact_path k)).
  { intros k a I. apply (in_kget _ FE k a _ N) in I. fold (store_load k s) in I. rewrite L in I. destruct (run_latest k l); [|discriminate]. injection I as <-. reflexivity. }
  destruct o as [k m b r|k ok|oks]; cbn [op_apply].
  - specialize (WO k eq_refl). unfold store_store. pose proof (fs_write_ok r (artifact_path k) b _ F) as FW. pose proof (fun q => fs_read_write r (artifact_path k) b q _ F) as RW.
    destruct (fs_write r (artifact_path k) b (sto_fs s)) as [ok fs] eqn:EW. cbn in FW, RW.
    assert (OK : ok = match r with WOk => true | _ => false end) by (destruct r; cbn in EW; injection EW; auto).
    assert (Files : forall k' m' b', wf_key k' -> step_latest k' (run_latest k' l) (OStore k m b r) = Some (m', b', true) -> fs_read (artifact_path k') fs = Some b').
    { intros k' m' b' WK. cbn [step_latest]. rewrite RW. destruct (artifact_key_eqb k k') eqn:E.
      - apply FE in E. subst k'. rewrite String.eqb_refl. destruct r; cbn [written]; [intros H; injection H as <- <-; reflexivity|apply C; exact WK|].
        destruct (run_latest k l); cbn; intros H; [injection H; discriminate|discriminate].
      - intros H. destruct (String.eqb (artifact_path k') (artifact_path k)) eqn:Q; [|eapply C; eauto].
        apply SE, artifact_path_inj in Q; [|assumption..]. subst k'. rewrite (proj2 (FE k k) eq_refl) in E. discriminate. }
    subst ok. destruct r; cbn [snd sto_fs sto_index].
    + split; cbn [sto_fs sto_index]; auto.
      * apply (kset_nodup _ FE). exact N.
      * intros k' a I. apply (kset_in _ FE) in I as [I|[I _]]; [injection I as -> ->; exact WO|eapply WF; eauto].
      * intros k'. unfold store_load. cbn. rewrite (kget_set _ FE), run_latest_snoc. cbn [step_latest].
        destruct (artifact_key_eqb k' k) eqn:E1; [apply FE in E1; subst k'; rewrite (proj2 (FE k k) eq_refl); reflexivity|].
        destruct (artifact_key_eqb k k') eqn:E2; [apply FE in E2; subst k'; rewrite (proj2 (FE k k) eq_refl) in E1; discriminate|]. apply L.
      * intros k' m' b'. rewrite run_latest_snoc. apply Files.
      * intros CL p d. rewrite RW. apply Forall_app in CL as [CL _]. destruct (String.eqb p (artifact_path k)) eqn:Q.
        -- intros _. apply SE in Q. subst p. exists k, (mkStored m (artifact_path k)). split; [apply (kset_in _ FE); auto|reflexivity].
        -- intros R. destruct (G CL p d R) as (k' & a & I & ->). exists k', a. split; [|reflexivity]. apply (kset_in _ FE). right. split; [exact I|]. cbn. intros ->. rewrite String.eqb_refl in Q. discriminate.
    + cbn in EW. injection EW as <-. split; cbn [sto_fs sto_index]; auto.
      * intros k'. rewrite run_latest_snoc. cbn [step_latest]. unfold store_load in *. cbn. rewrite L. destruct (artifact_key_eqb k k'); reflexivity.
      * intros k' m' b'. rewrite run_latest_snoc. apply Files.
      * intros CL. apply Forall_app in CL as [CL _]. apply (G CL).
    + split; cbn [sto_fs sto_index]; auto.
      * intros k'. rewrite run_latest_snoc. cbn [step_latest]. unfold store_load in *. cbn. rewrite L. destruct (artifact_key_eqb k k'); [|reflexivity]. destruct (run_latest k' l); reflexivity.
      * intros k' m' b'. rewrite run_latest_snoc. apply Files.
      * intros CL. apply Forall_app in CL as [_ CL]. apply Forall_inv in CL. destruct CL.
  - specialize (WO k eq_refl). unfold store_delete. destruct (kget artifact_key_eqb k (sto_index s)) as [a|] eqn:E.
    + assert (P : st_path a = artifact_path k) by (apply (kget_in _ FE) in E; rewrite (IN _ _ E); reflexivity).
      split; cbn [sto_fs sto_index].
      * apply fs_remove_ok. exact F.
      * apply kdel_nodup. exact N.
      * intros k' a' I. apply (kdel_in _ FE) in I as [I _]. eapply WF; eauto.
      * intros k'. unfold store_load in *. cbn. rewrite (kget_del _ FE), run_latest_snoc. cbn [step_latest].
        destruct (artifact_key_eqb k' k) eqn:E1; [apply FE in E1; subst k'; rewrite (proj2 (FE k k) eq_refl); reflexivity|].
        destruct (artifact_key_eqb k k') eqn:E2; [apply FE in E2; subst k'; rewrite (proj2 (FE k k) eq_refl) in E1; discriminate|]. apply L.
      * intros k' m b WK. rewrite run_latest_snoc. cbn [step_latest]. destruct (artifact_key_eqb k k') eqn:E2; [discriminate|]. intros H. rewrite fs_read_remove, P.
        destruct (String.eqb (artifact_path k') (artifact_path k)) eqn:Q; [|rewrite andb_false_r; eapply C; eauto].
        apply SE, artifact_path_inj in Q; [|assumption..]. subst k'. rewrite (proj2 (FE k k) eq_refl) in E2. discriminate.
      * intros CL p d. rewrite fs_read_remove, P. apply Forall_app in CL as [CL CO]. apply Forall_inv in CO. cbn in CO. subst ok. cbn.
        destruct (String.eqb p (artifact_path k)) eqn:Q; [discriminate|]. intros R. destruct (G CL p d R) as (k' & a' & I & ->). exists k', a'. split; [|reflexivity].
        apply (kdel_in _ FE). split; [exact I|]. cbn. intros ->. rewrite String.eqb_refl in Q. discriminate.
    + split; auto.
      * intros k'. rewrite run_latest_snoc. cbn [step_latest]. destruct (artifact_key_eqb k k') eqn:E2; [|apply L]. apply FE in E2. subst k'. exact E.
      * intros k' m b WK. rewrite run_latest_snoc. cbn [step_latest]. destruct (artifact_key_eqb k k'); [discriminate|]. intros H. eapply C; eauto.
      * intros CL. apply Forall_app in CL as [CL _]. apply (G CL).
  - unfold store_clear. split; cbn [sto_fs sto_index].
    + apply fs_fold_ok. exact F.
    + constructor.
    + intros k a [].
    + intros k. rewrite run_latest_snoc. reflexivity.
    + intros k m b _. rewrite run_latest_snoc. discriminate.
    + intros CL p d. rewrite fs_read_fold. apply Forall_app in CL as [CL CO]. apply Forall_inv in CO. cbn in CO.
      destruct (existsb _ _) eqn:EX; [discriminate|]. intros R. exfalso. destruct (G CL p d R) as (k & a & I & ->).
      assert (T : existsb (fun p => oks p && String.eqb (artifact_path k) p) (map (fun e => st_path (snd e)) (sto_index s)) = true); [|congruence].
      apply existsb_exists. exists (artifact_path k). rewrite CO, String.eqb_refl. split; [|reflexivity]. apply in_map_iff. exists (k, a). split; [|exact I]. cbn. rewrite (IN _ _ I). reflexivity.
Qed.

(** ** Preload. *)
Lemma preload_picks load arts : forall seen k p, In (k, p) (preload_loop load arts seen) <-> picks load arts k p /\ existsb (key_eqb k) seen = false.
Proof.
  induction arts as [|[a s] arts IH]; intros seen k p; cbn.
  { split; [tauto|]. intros [(l1 & a & s & l2 & H & _) _]. destruct l1; discriminate. }
  assert (Skip : load a s = None \/ a_run a <> k -> (picks load ((a, s) :: arts) k p <-> picks load arts k p)).
  { intros NA. split.
    - intros (l1 & a' & s' & l2 & E & K & Ld & F). destruct l1 as [|x l1]; cbn in E.
      + injection E as -> -> ->. destruct NA as [NA|NA]; congruence.
      + injection E as <- ->. exists l1, a', s', l2. repeat split; auto. intros a2 s2 I. apply F. right. exact I.
    - intros (l1 & a' & s' & l2 & -> & K & Ld & F). exists ((a, s) :: l1), a', s', l2. repeat split; auto. intros a2 s2 [I|I] K2; [injection I as -> ->; destruct NA; [assumption|congruence]|apply (F a2 s2 I K2)]. }
  destruct (load a s) as [q|] eqn:LD.
  - destruct (existsb (key_eqb (a_run a)) seen) eqn:SN.
    + rewrite IH. destruct (key_eqb (a_run a) k) eqn:E.
      * apply KE in E. subst k. rewrite SN. split; intros [_ H]; discriminate.
      * rewrite Skip; [reflexivity|]. right. intros X. rewrite X, (eqb_refl _ KE) in E. discriminate.
    + cbn. rewrite IH. cbn. destruct (key_eqb k (a_run a)) eqn:E.
      * apply KE in E. subst k. rewrite SN. cbn. split.
        -- intros W; destruct W as [W|[_ W]]; [injection W as ->|discriminate]. split; [|reflexivity]. exists [], a, s, arts. repeat split; auto. intros a' s' [].
        -- intros [(l1 & a' & s' & l2 & EQ & K & Ld & F) _]. left. destruct l1 as [|x l1]; cbn in EQ; [injection EQ as -> -> ->; congruence|].
           injection EQ as <- ->. rewrite (F a s (or_introl eq_refl) eq_refl) in LD. discriminate.
      * cbn. rewrite Skip; [|right; intros X; rewrite X, (eqb_refl _ KE) in E; discriminate]. split; [intros [H|H]; [injection H as H _; rewrite H, (eqb_refl _ KE) in E; discriminate|exact H]|auto].
  - rewrite IH, Skip; [reflexivity|]. left. reflexivity.
Qed.
Lemma preload_nodup load arts : forall seen, NoDup (map fst (preload_loop load arts seen)).
Proof.
  induction arts as [|[a s] arts IH]; intros seen; cbn; [constructor|]. destruct (load a s) as [q|]; [|apply IH]. destruct (existsb _ seen); [apply IH|]. cbn.
  constructor; [|apply IH]. intros I. apply in_map_iff in I as ([k p] & E & I). cbn in E. subst k. apply preload_picks in I as [_ I]. cbn in I. rewrite (eqb_refl _ KE) in I. discriminate.
Qed.
