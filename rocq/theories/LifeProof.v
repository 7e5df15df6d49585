(** Proofs about the life cycle of a compiler instance. *)
From Verif Require Import LifeModel LifeSpec.

Section Proof.
  Context {code : Type}.
  Notation func := (func code).
  Notation life := (life code).
  Notation call := (call code).
  Notation res := (res code).
  Implicit Types (s : life) (f : func).

  Lemma calls_app l1 : forall s l2, calls s (l1 ++ l2) = (let '(s1, r1) := calls s l1 in let '(s2, r2) := calls s1 l2 in (s2, r1 ++ r2)).
  Proof.
    induction l1 as [|c l1 IH]; intros s l2; cbn [app calls]; [destruct (calls s l2); reflexivity|].
    destruct (do_call s c) as [s1 r]. rewrite IH. destruct (calls s1 l1) as [s2 r1]. destruct (calls s2 l2); reflexivity.
  Qed.
  Lemma calls_length l : forall s s' rs, calls s l = (s', rs) -> length rs = length l.
  Proof.
    induction l as [|c l IH]; intros s s' rs H; cbn in H; [injection H as _ <-; reflexivity|].
    destruct (do_call s c) as [s1 r]. destruct (calls s1 l) as [s2 r2] eqn:E. injection H as _ <-. cbn. f_equal. eapply IH; eauto.
  Qed.

  Ltac fin_ := cbn; repeat split; auto; try contradiction; try congruence; intros; try discriminate.
  (** ** Finalized modules. *)
  Definition same_build (s s' : life) : Prop := s_finalized s' = true /\ s_runs s' = s_runs s /\ s_aot s' = s_aot s /\ (s_aot s = true -> s_module s' = s_module s).
  Lemma finalize_same s b o a s' ok : s_finalized s = true -> finalize s b o a = (s', ok) -> s' = s /\ ok = true.
  Proof. unfold finalize. intros ->. intros H. injection H as <- <-. auto. Qed.
  Lemma finalized_step s c s' r : s_finalized s = true -> (s_aot s = true -> s_staged s = []) -> is_clear c = false -> do_call s c = (s', r) ->
    same_build s s' /\ (s_aot s = true -> s_staged s' = []) /\ (is_translate c -> r = RErr /\ s' = s) /\
    (forall l, r = RObject l -> l = s_module s).
  Proof.
    intros F ST NC H. unfold same_build. destruct c as [n c p u b|id a b c d e f g|a b c d e|id rm|cr|j cr| |t]; cbn [do_call] in H; try discriminate NC.
    - unfold translate in H. rewrite F in H. injection H as <- <-. fin_.
    - unfold jit_function in H. destruct (s_aot s) eqn:A.
      { injection H as <- <-. fin_. }
      destruct (finalize s a b c) as [s1 ok1] eqn:E1. destruct (finalize_same _ _ _ _ _ _ F E1) as [-> ->]. cbn [negb] in H.
      destruct (commit s d e) as [s2 ok2] eqn:E2.
      assert (K : s_finalized s2 = true /\ s_runs s2 = s_runs s /\ s_aot s2 = s_aot s).
      { revert E2. unfold commit. destruct (_ || _); [intros X; injection X as <- <-; auto|]. destruct (negb d); [intros X; injection X as <- <-; auto|].
        destruct (_ || _); intros X; injection X as <- <-; auto. }
      assert (K2 : s' = s2 /\ forall l, r <> RObject l).
      { destruct ok2; cbn [negb] in H; [|injection H as <- <-; split; [auto|discriminate]].
        destruct (name_of _ _); [|injection H as <- <-; split; [auto|discriminate]]. destruct f; cbn [negb] in H; [|injection H as <- <-; split; [auto|discriminate]].
        destruct (find_name _ _); injection H as <- <-; split; try reflexivity; try discriminate. destruct g; discriminate. }
      destruct K as (K & K' & K''). destruct K2 as [-> K2]. rewrite A in K''. fin_; exfalso; eapply K2; eauto.
    - unfold write_object in H. destruct (finalize s a b c) as [s1 ok1] eqn:E1. destruct (finalize_same _ _ _ _ _ _ F E1) as [-> ->]. cbn [negb] in H.
      injection H as <- <-. fin_. destruct (d && e); [congruence|discriminate].
    - unfold free_function in H. destruct (mem id (s_staged s) && _) eqn:D; [injection H as <- <-; fin_|].
      assert (M : s_aot s = true -> mem id (s_staged s) = false) by (intros A; rewrite (ST A); reflexivity).
      assert (M2 : s_aot s = true -> filter (fun i => negb (i =? id)) (s_staged s) = []) by (intros A; rewrite (ST A); reflexivity).
      destruct (find _ (s_committed s)) as [[x t]|].
      + destruct (negb rm); [injection H as <- <-; fin_; rewrite M by assumption; reflexivity|].
        destruct (nth_error _ _); injection H as <- <-; (fin_; rewrite M by assumption; reflexivity).
      + injection H as <- <-; (fin_; rewrite M by assumption; reflexivity).
    - unfold take_tracker in H. destruct (rev (s_trackers s)); injection H as <- <-; fin_.
    - unfold drop_tracker in H. injection H as <- <-; fin_.
  Qed.
  Lemma aot_staged l : forall s s' rs, (s_aot s = true -> s_staged s = []) -> calls s l = (s', rs) -> s_aot s' = s_aot s /\ (s_aot s' = true -> s_staged s' = []).
  Proof.
    induction l as [|c l IH]; intros s s' rs ST H; cbn in H; [injection H as <- _; auto|].
    destruct (do_call s c) as [s1 r] eqn:E. destruct (calls s1 l) as [s2 r2] eqn:E2. injection H as <- _.
    assert (K : s_aot s1 = s_aot s /\ (s_aot s1 = true -> s_staged s1 = [])).
    { clear IH E2. destruct c as [n c p u b|id a b c d e f g|a b c d e|id rm|cr|j cr| |t]; cbn [do_call] in E.
      - unfold translate in E. destruct (s_finalized s); [injection E as <- _; auto|]. destruct (negb p); [injection E as <- _; auto|].
        destruct (find_name n (s_module s)) eqn:Fn; [injection E as <- _; auto|]. unfold build_function in E. rewrite Fn in E.
        assert (X : forall A B (y : A) (o : option B), match o with Some _ => y | None => y end = y) by (intros; destruct o; reflexivity).
        destruct (find _ (s_names s)) as [[? ?]|]; (destruct (_ && _); [injection E as <- _; cbn; split; [reflexivity|]; intros A; rewrite A; auto|]; destruct u; injection E as <- _; cbn; (split; [reflexivity|]; intros A; rewrite A; auto)).
      - unfold jit_function in E. destruct (s_aot s) eqn:A; [injection E as <- _; rewrite A; auto|].
        destruct (finalize s a b c) as [s3 ok1] eqn:E1.
        assert (A3 : s_aot s3 = false). { unfold finalize in E1. destruct (s_finalized s); [injection E1 as <- _; auto|]. destruct (negb a); injection E1 as <- _; auto. }
        destruct ok1; cbn [negb] in E; [|injection E as <- _; rewrite A3; split; [reflexivity|discriminate]].
        destruct (commit s3 d e) as [s4 ok2] eqn:E4.
        assert (A4 : s_aot s4 = false). { unfold commit in E4. destruct (_ || _); [injection E4 as <- _; auto|]. destruct (negb d); [injection E4 as <- _; auto|]. destruct (_ || _); injection E4 as <- _; auto. }
        assert (s1 = s4) as ->. { destruct ok2; cbn [negb] in E; [|congruence]. destruct (name_of _ _); [|congruence]. destruct f; cbn [negb] in E; [|congruence]. destruct (find_name _ _); congruence. }
        rewrite A4. split; [reflexivity|discriminate].
      - unfold write_object in E. destruct (finalize s a b c) as [s3 ok1] eqn:E1.
        assert (A3 : s_aot s3 = s_aot s /\ s_staged s3 = s_staged s). { unfold finalize in E1. destruct (s_finalized s); [injection E1 as <- _; auto|]. destruct (negb a); injection E1 as <- _; auto. }
        assert (s1 = s3) as -> by (destruct ok1; cbn [negb] in E; congruence). destruct A3 as [A3 A4]. split; [exact A3|]. rewrite A3, A4. exact ST.
      - unfold free_function in E. destruct (_ && _); [injection E as <- _; auto|].
        assert (M2 : s_aot s = true -> filter (fun i => negb (i =? id)) (s_staged s) = []) by (intros A; rewrite (ST A); reflexivity).
        destruct (find _ _) as [[? ?]|]; [|injection E as <- _; cbn; auto]. destruct (negb rm); [injection E as <- _; cbn; auto|]. destruct (nth_error _ _); injection E as <- _; cbn; auto.
      - unfold clear_ir in E. destruct cr; injection E as <- _; cbn; auto.
      - unfold clear in E. destruct (negb j); [injection E as <- _; cbn; auto|]. destruct (negb cr); injection E as <- _; cbn; auto.
      - unfold take_tracker in E. destruct (rev _); injection E as <- _; cbn; auto.
      - unfold drop_tracker in E. injection E as <- _; cbn; auto. }
    destruct K as [K1 K2]. destruct (IH _ _ _ K2 E2) as [K3 K4]. split; [congruence|exact K4].
  Qed.
  Lemma finalized_calls l : forall s s' rs, s_finalized s = true -> (s_aot s = true -> s_staged s = []) -> calls s l = (s', rs) -> no_clear (combine l rs) ->
    same_build s s' /\ (forall c r, In (c, r) (combine l rs) -> (is_translate c -> r = RErr) /\ (forall m, s_aot s = true -> r = RObject m -> m = s_module s)).
  Proof.
    induction l as [|c l IH]; intros s s' rs F ST H NC; cbn in H; [injection H as <- <-; split; [unfold same_build; auto|intros ? ? []]|].
    destruct (do_call s c) as [s1 r] eqn:E. destruct (calls s1 l) as [s2 r2] eqn:E2. injection H as <- <-. cbn in NC. inversion NC as [|? ? NC1 NC2]; subst.
    destruct (finalized_step _ _ _ _ F ST NC1 E) as ((F1 & R1 & A1 & M1) & ST1 & T1 & O1).
    rewrite <- A1 in ST1. destruct (IH _ _ _ F1 ST1 E2 NC2) as ((F2 & R2 & A2 & M2) & G).
    split; [unfold same_build; repeat split; try congruence; intros A; rewrite M2 by congruence; auto|].
    intros c0 r0 [X|X]; [injection X as <- <-; split; [intros T; apply T1; exact T|intros m _ Em; apply O1; exact Em]|].
    destruct (G _ _ X) as [G1 G2]. split; [exact G1|]. intros m A Em. rewrite <- (M1 A). apply G2; [congruence|exact Em].
  Qed.
  Lemma finalizes_finalized s c s' r : do_call s c = (s', r) -> finalizes (c, r) -> s_finalized s' = true /\ (forall l, r = RObject l -> s_module s' = l).
  Proof.
    intros H Fz. destruct c as [n c p u b|id a b c d e f g|a b c d e|id rm|cr|j cr| |t]; cbn in Fz; try contradiction; destruct r; try contradiction; cbn [do_call] in H.
    - split; [|intros l E; discriminate]. unfold jit_function in H. destruct (s_aot s); [discriminate|]. destruct (finalize s a b c) as [s1 ok1] eqn:E1.
      destruct ok1; cbn [negb] in H; [|discriminate].
      assert (F1 : s_finalized s1 = true). { unfold finalize in E1. destruct (s_finalized s) eqn:F; [injection E1 as <- ; exact F|]. destruct (negb a); [discriminate|]. injection E1 as <- E. cbn. exact E. }
      destruct (commit s1 d e) as [s2 ok2] eqn:E2.
      assert (F2 : s_finalized s2 = true). { unfold commit in E2. destruct (_ || _); [injection E2 as <- _; auto|]. destruct (negb d); [injection E2 as <- _; auto|]. destruct (_ || _); injection E2 as <- _; auto. }
      destruct ok2; cbn [negb] in H; [|discriminate]. destruct (name_of _ _); [|discriminate]. destruct f; cbn [negb] in H; [|discriminate]. destruct (find_name _ _); [|discriminate]. injection H as <- _. exact F2.
    - unfold write_object in H. destruct (finalize s a b c) as [s1 ok1] eqn:E1. destruct ok1; cbn [negb] in H; [|discriminate]. injection H as <- E.
      assert (F1 : s_finalized s1 = true). { unfold finalize in E1. destruct (s_finalized s) eqn:F; [injection E1 as <- ; exact F|]. destruct (negb a); [discriminate|]. injection E1 as <- E0. cbn. exact E0. }
      split; [exact F1|]. intros l0 X. destruct (d && e); [congruence|discriminate].
  Qed.
  Theorem no_add_after aot l1 c l2 s1 r1 s2 r s3 r3 : calls (new_life aot) l1 = (s1, r1) -> do_call s1 c = (s2, r) -> calls s2 l2 = (s3, r3) ->
    finalizes (c, r) -> no_clear (combine l2 r3) ->
    s_runs s3 = s_runs s2 /\
    (forall e, In e (combine l2 r3) -> is_translate (fst e) -> snd e = RErr) /\
    (forall m m' c', aot = true -> r = RObject m -> In (c', RObject m') (combine l2 r3) -> m' = m).
  Proof.
    intros H1 H2 H3 Fz NC. destruct (finalizes_finalized _ _ _ _ H2 Fz) as [F O].
    assert (C2 : calls (new_life aot) (l1 ++ [c]) = (s2, r1 ++ [r])) by (rewrite calls_app, H1; cbn [calls]; rewrite H2; reflexivity).
    destruct (aot_staged _ _ _ _ (fun _ => eq_refl : s_staged (new_life aot) = []) C2) as [A ST]. cbn in A.
    destruct (finalized_calls _ _ _ _ F ST H3 NC) as ((_ & R & _) & G). split; [exact R|]. split.
    - intros [c0 r0] Hin T. apply (G c0 r0 Hin). exact T.
    - intros m m' c' Ha Er Hin. destruct (G _ _ Hin) as [_ G2]. rewrite <- (O _ Er). apply G2; [congruence|reflexivity].
  Qed.

  (** ** Invariant of all states. [B] collects the functions ever built. *)
  Record inv (s : life) (B : list func) : Prop := {
    iv_b : s_finalized s = true \/ s_builtins s = None \/ s_builtins s = Some (s_mid s);
    iv_m : NoDup (map f_name (s_module s));
    iv_j : NoDup (map (fun p => f_name (snd p)) (s_jd s));
    iv_c : forall id t, In (id, t) (s_committed s) -> t < length (s_trackers s) /\ id < s_counter s /\ ~ In id (s_staged s);
    iv_s : forall id, In id (s_staged s) -> id < s_counter s;
    iv_n : forall id n, In (id, n) (s_names s) -> id < s_counter s;
    iv_u : NoDup (map fst (s_names s));
    iv_B : (forall f, In f (s_module s) -> In f B) /\ (forall t f, In (t, f) (s_jd s) -> In f B) /\
           NoDup (map f_id B) /\ (forall f, In f B -> f_id f < s_counter s)
  }.
  Lemma inv_new aot : inv (new_life aot) [].
  Proof. constructor; cbn; auto; try constructor; try contradiction; try tauto. split; [contradiction|]. split; [constructor|contradiction]. Qed.

  Lemma NoDup_filter_map {A C} (g : A -> C) (h : A -> bool) l : NoDup (map g l) -> NoDup (map g (filter h l)).
  Proof.
    induction l as [|x l IH]; cbn; [auto|]. intros H. inversion H as [|? ? H1 H2]; subst. destruct (h x); cbn; [|auto]. constructor; [|auto].
    intros X. apply H1. apply in_map_iff in X as (y & E & Y). apply filter_In in Y as [Y _]. apply in_map_iff. eauto.
  Qed.
  Lemma NoDup_app_intro {A} (l1 l2 : list A) : NoDup l1 -> NoDup l2 -> (forall x, In x l1 -> In x l2 -> False) -> NoDup (l1 ++ l2).
  Proof.
    induction l1 as [|x l1 IH]; cbn; [auto|]. intros H1 H2 H. inversion H1; subst. constructor; [|apply IH; auto; intros y Y1 Y2; eapply H; eauto].
    intros X. apply in_app_iff in X as [X|X]; [auto|]. eapply H; eauto.
  Qed.
  Lemma find_name_none n (l : list func) : find_name n l = None -> forall f, In f l -> f_name f <> n.
  Proof. unfold find_name. intros H f Hf E. pose proof (find_none _ _ H f Hf) as X. cbn in X. apply Nat.eqb_neq in X. auto. Qed.
  Lemma find_name_some n (l : list func) f : find_name n l = Some f -> In f l /\ f_name f = n.
  Proof. unfold find_name. intros H. apply find_some in H as [H1 H2]. apply Nat.eqb_eq in H2. auto. Qed.
  Lemma name_of_some id l n : name_of id l = Some n -> In (id, n) l.
  Proof. unfold name_of. destruct (find _ l) as [[a b]|] eqn:E; cbn; [|discriminate]. intros X. injection X as <-. apply find_some in E as [E1 E2]. cbn in E2. apply Nat.eqb_eq in E2. subst. exact E1. Qed.
  Lemma name_of_none id l : name_of id l = None -> forall n, ~ In (id, n) l.
  Proof. unfold name_of. destruct (find _ l) eqn:E; [discriminate|]. intros _ n H. pose proof (find_none _ _ E _ H) as X. cbn in X. rewrite Nat.eqb_refl in X. discriminate. Qed.
  Lemma clash_false s : clash s = false -> forall f t g, In f (s_module s) -> In (t, g) (s_jd s) -> f_name g <> f_name f.
  Proof.
    unfold clash. intros H f t g Hf Hg E. apply not_true_iff_false in H. apply H. apply existsb_exists. exists f. split; [exact Hf|].
    apply existsb_exists. exists (t, g). split; [exact Hg|]. cbn. apply Nat.eqb_eq. exact E.
  Qed.
  Lemma mem_In x l : mem x l = true <-> In x l.
  Proof. unfold mem. rewrite existsb_exists. split; [intros (y & H & E); apply Nat.eqb_eq in E; subst; exact H|intros H; exists x; split; [exact H|apply Nat.eqb_refl]]. Qed.

  Lemma inv_finalize s b o a s' ok B : inv s B -> finalize s b o a = (s', ok) -> inv s' B /\ (ok = true -> s_finalized s' = true).
  Proof.
    intros I H. unfold finalize in H. destruct (s_finalized s) eqn:F; [injection H as <- <-; auto|]. destruct (negb b); [injection H as <- <-; split; [exact I|discriminate]|].
    injection H as <- <-. split; [|auto]. destruct I as [Ib Im Ij Ic Is In_ Iu IB]. constructor; cbn; auto. rewrite F in Ib. destruct Ib as [Ib|Ib]; [discriminate|auto].
  Qed.
  Lemma inv_commit s cr ad s' ok B : inv s B -> s_finalized s = true -> commit s cr ad = (s', ok) -> inv s' B /\ s_finalized s' = true /\ s_names s' = s_names s.
  Proof.
    intros I F H. unfold commit in H. destruct (_ || _); [injection H as <- <-; auto|]. destruct (negb cr); [injection H as <- <-; auto|].
    destruct I as [Ib Im Ij Ic Is In_ Iu (B1 & B2 & B3 & B4)].
    destruct (negb ad || clash s) eqn:E; injection H as <- <-; (split; [|auto]).
    - constructor; cbn; auto; [constructor|]. repeat split; auto; contradiction.
    - apply orb_false_iff in E as [_ E]. constructor; cbn; auto.
      + constructor.
      + rewrite map_app, map_map. cbn. apply NoDup_app_intro; auto. intros x X1 X2.
        apply in_map_iff in X1 as (f & <- & Hf). apply in_map_iff in X2 as ([t g] & E2 & Hg). cbn in E2. eapply clash_false; eauto.
      + intros id t X. rewrite app_length. cbn. apply in_app_iff in X as [X|X].
        * apply in_map_iff in X as (i & X & Hi). injection X as <- <-. split; [lia|]. split; [auto|tauto].
        * destruct (Ic _ _ X) as (C1 & C2 & _). split; [lia|]. split; [auto|tauto].
      + contradiction.
      + split; [contradiction|]. split; [|auto]. intros t f X. apply in_app_iff in X as [X|X]; [|eauto].
        apply in_map_iff in X as (g & X & Hg). injection X as _ <-. auto.
  Qed.

  (** A successful translation adds exactly one function, under a new id. *)
  Lemma step_inv s c s' r B : inv s B -> do_call s c = (s', r) -> exists B', inv s' B' /\ (forall f, In f B -> In f B') /\
    (forall n cd p u b id, c = Translate n cd p u b -> r = RId id -> In (mkF n id cd) B' /\ s_counter s <= id) /\
    (forall f, r = RAddr f -> In f B') /\ (r = RUb -> exists id rm, c = FreeFunction id rm).
  Proof.
    intros I H. destruct c as [n c p u b|id a b c d e f g|a b c d e|id rm|cr|j cr| |t]; cbn [do_call] in H.
    - unfold translate in H. destruct (s_finalized s) eqn:F.
      { injection H as <- <-. exists B. split; [exact I|]. split; [auto|]. split; [intros; discriminate|]. split; intros; discriminate. }
      destruct (negb p). { injection H as <- <-. exists B. split; [exact I|]. split; [auto|]. split; [intros; discriminate|]. split; intros; discriminate. }
      destruct (find_name n (s_module s)) eqn:Fn.
      { injection H as <- <-. exists B. split; [exact I|]. split; [auto|]. split; [intros; discriminate|]. split; intros; discriminate. }
      destruct I as [Ib Im Ij Ic Is In_ Iu (B1 & B2 & B3 & B4)].
      unfold build_function in H. rewrite Fn in H.
      match type of H with (let '(_, _) := match find ?a ?b with _ => _ end in _) = _ => assert (X : forall A (y : A), match find a b with Some (_, _) => y | None => y end = y) by (intros; destruct (find a b) as [[? ?]|]; reflexivity) end.
      rewrite X in H. clear X. cbn [s_builtins s_mid] in H. rewrite F in Ib. destruct Ib as [Ib|Ib]; [discriminate|].
      assert (U : (u && match s_builtins s with Some m => negb (m =? s_mid s) | None => false end) = false).
      { destruct Ib as [-> | ->]; [apply andb_false_r|]. rewrite Nat.eqb_refl. apply andb_false_r. }
      rewrite U in H. injection H as <- <-. exists (B ++ [mkF n (s_counter s) c]).
      assert (K : forall bt, bt = None \/ bt = Some (s_mid s) -> inv (mkLife (s_aot s) (s_finalized s) bt (s_mid s) (s_module s ++ [mkF n (s_counter s) c]) (S (s_counter s))
                ((s_counter s, n) :: s_names s) (if s_aot s then s_staged s else s_counter s :: s_staged s)
                (s_committed s) (s_trackers s) (s_ntr s) (s_jd s) (s_runs s)) (B ++ [mkF n (s_counter s) c])).
      { intros bt Hbt. constructor; cbn; auto.
        - rewrite map_app. cbn. apply NoDup_app_intro; [exact Im|constructor; [auto|constructor]|].
          intros x X [<-|[]]. apply in_map_iff in X as (f & E & Hf). eapply find_name_none; eauto.
        - intros id t X. destruct (Ic _ _ X) as (C1 & C2 & C3). split; [auto|]. split; [lia|]. destruct (s_aot s); [auto|]. intros [Y|Y]; [lia|auto].
        - intros id X. assert (id = s_counter s \/ In id (s_staged s)) as [->|Y] by (destruct (s_aot s); [auto|destruct X; auto]); [lia|]. specialize (Is _ Y). lia.
        - intros id m [X|X]; [injection X as <- <-; lia|]. specialize (In_ _ _ X). lia.
        - constructor; [|exact Iu]. intros X. apply in_map_iff in X as ([i m] & E & Hf). cbn in E. subst i. specialize (In_ _ _ Hf). lia.
        - split; [|split; [|split]].
          + intros f X. apply in_app_iff in X as [X|X]; apply in_app_iff; [left; auto|right; exact X].
          + intros t f X. apply in_app_iff. left. eauto.
          + rewrite map_app. cbn. apply NoDup_app_intro; [exact B3|constructor; [auto|constructor]|].
            intros x X [<-|[]]. apply in_map_iff in X as (f & E & Hf). specialize (B4 _ Hf). lia.
          + intros f X. apply in_app_iff in X as [X|[<-|[]]]; [specialize (B4 _ X); lia|cbn; lia]. }
      split; [|split; [intros f X; apply in_app_iff; auto|split; [|split]]].
      + destruct u; [exact (K (Some (s_mid s)) (or_intror eq_refl))|exact (K (s_builtins s) Ib)].
      + intros n0 cd p0 u0 b0 id E Er. injection E as <- <- <- <- <-. destruct b; [|discriminate]. injection Er as <-. split; [apply in_app_iff; right; left; reflexivity|lia].
      + intros f. destruct b; discriminate.
      + destruct b; discriminate.
    - exists B. assert (K : inv s' B /\ (forall f, r = RAddr f -> In f B) /\ r <> RUb).
      { unfold jit_function in H. destruct (s_aot s); [injection H as <- <-; split; [exact I|split; [intros; discriminate|discriminate]]|].
        destruct (finalize s a b c) as [s1 ok1] eqn:E1. destruct (inv_finalize _ _ _ _ _ _ _ I E1) as [I1 F1].
        destruct ok1; cbn [negb] in H; [|injection H as <- <-; split; [exact I1|split; [intros; discriminate|discriminate]]].
        destruct (commit s1 d e) as [s2 ok2] eqn:E2. destruct (inv_commit _ _ _ _ _ _ I1 (F1 eq_refl) E2) as (I2 & _).
        destruct ok2; cbn [negb] in H; [|injection H as <- <-; split; [exact I2|split; [intros; discriminate|discriminate]]].
        destruct (name_of _ _); [|injection H as <- <-; split; [exact I2|split; [intros; discriminate|discriminate]]].
        destruct f; cbn [negb] in H; [|injection H as <- <-; split; [exact I2|split; [intros; discriminate|discriminate]]].
        destruct (find_name _ _) as [h|] eqn:E3; injection H as <- <-; (split; [exact I2|]).
        - split; [|destruct g; discriminate]. intros f X. destruct g; [|discriminate]. injection X as <-. apply find_name_some in E3 as [E3 _].
          apply in_map_iff in E3 as ([t h'] & E4 & E5). cbn in E4. subst h'. destruct I2. destruct iv_B0 as (_ & B2 & _). eauto.
        - split; [intros; discriminate|discriminate]. }
      destruct K as (K1 & K2 & K3). split; [exact K1|]. split; [auto|]. split; [intros; discriminate|]. split; [exact K2|contradiction].
    - exists B. unfold write_object in H. destruct (finalize s a b c) as [s1 ok1] eqn:E1. destruct (inv_finalize _ _ _ _ _ _ _ I E1) as [I1 F1].
      assert (s' = s1 /\ (forall f, r <> RAddr f) /\ r <> RUb) as (-> & N1 & N2).
      { destruct ok1; cbn [negb] in H; injection H as <- <-; (split; [reflexivity|split; try discriminate]). destruct (d && e); discriminate. destruct (d && e); discriminate. }
      split; [exact I1|]. split; [auto|]. split; [intros; discriminate|]. split; [intros f X; destruct (N1 f X)|contradiction].
    - exists B. assert (K : inv s' B /\ (forall f, r <> RAddr f)).
      { unfold free_function in H. destruct (_ && _); [injection H as <- <-; split; [exact I|discriminate]|].
        destruct I as [Ib Im Ij Ic Is In_ Iu (B1 & B2 & B3 & B4)].
        assert (M1 : forall f, In f (if mem id (s_staged s) then filter (fun f => negb (f_id f =? id)) (s_module s) else s_module s) -> In f (s_module s)).
        { intros f. destruct (mem _ _); [|auto]. intros X. apply filter_In in X. tauto. }
        assert (M2 : NoDup (map f_name (if mem id (s_staged s) then filter (fun f => negb (f_id f =? id)) (s_module s) else s_module s))).
        { destruct (mem _ _); [apply NoDup_filter_map|]; exact Im. }
        assert (S1 : forall i, In i (filter (fun i => negb (i =? id)) (s_staged s)) -> In i (s_staged s)) by (intros i X; apply filter_In in X; tauto).
        destruct (find _ (s_committed s)) as [[x t]|].
        - destruct (negb rm); [|destruct (nth_error (s_trackers s) t)]; injection H as <- <-; (split; [|discriminate]).
          + constructor; cbn; auto.
            * intros i t0 X. apply filter_In in X as [X _]. destruct (Ic _ _ X) as (C1 & C2 & C3). repeat split; auto.
          + constructor; cbn; auto.
            * apply NoDup_filter_map. exact Ij.
            * intros i t0 X. apply filter_In in X as [X _]. apply filter_In in X as [X _]. destruct (Ic _ _ X) as (C1 & C2 & C3). repeat split; auto.
            * intros i m X. apply filter_In in X as [X _]. eauto.
            * apply NoDup_filter_map. exact Iu.
            * repeat split; auto. intros t0 f X. apply filter_In in X as [X _]. eauto.
          + constructor; auto.
        - injection H as <- <-; (split; [|discriminate]). constructor; cbn; auto.
          + intros i t0 X. destruct (Ic _ _ X) as (C1 & C2 & C3). repeat split; auto.
          + intros i m X. apply filter_In in X as [X _]. eauto.
          + apply NoDup_filter_map. exact Iu. }
      destruct K as [K1 K2]. split; [exact K1|]. split; [auto|]. split; [intros; discriminate|]. split; [intros f X; destruct (K2 f X)|eauto].
    - exists B. destruct I as [Ib Im Ij Ic Is In_ Iu (B1 & B2 & B3 & B4)]. unfold clear_ir in H. destruct cr; injection H as <- <-;
        (split; [|split; [auto|split; [intros; discriminate|split; intros; discriminate]]]); constructor; cbn; auto; try (apply NoDup_nil); try contradiction; try (repeat split; auto; contradiction).
      intros id t X. destruct (Ic _ _ X) as (C1 & C2 & C3). auto.
    - exists B. destruct I as [Ib Im Ij Ic Is In_ Iu (B1 & B2 & B3 & B4)]. unfold clear in H. destruct (negb j); [|destruct (negb cr)]; injection H as <- <-;
        (split; [|split; [auto|split; [intros; discriminate|split; intros; discriminate]]]); constructor; cbn; auto; try (apply NoDup_nil); try contradiction; try (repeat split; auto; contradiction).
    - exists B. assert (K : inv s' B /\ (forall f, r <> RAddr f) /\ r <> RUb).
      { destruct I as [Ib Im Ij Ic Is In_ Iu (B1 & B2 & B3 & B4)]. unfold take_tracker in H. destruct (rev (s_trackers s)) as [|t0 l] eqn:Er; injection H as <- <-; (split; [|split; discriminate]); constructor; cbn; auto.
        intros id t X. apply filter_In in X as [X Y]. cbn in Y. destruct (Ic _ _ X) as (C1 & C2 & C3). repeat split; auto.
        apply (f_equal (@length nat)) in Er. rewrite rev_length in *. cbn in Er. apply negb_true_iff, Nat.eqb_neq in Y. lia. }
      destruct K as (K1 & K2 & K3). split; [exact K1|]. split; [auto|]. split; [intros; discriminate|]. split; [intros f X; destruct (K2 f X)|contradiction].
    - exists B. destruct I as [Ib Im Ij Ic Is In_ Iu (B1 & B2 & B3 & B4)]. unfold drop_tracker in H. injection H as <- <-.
      split; [|split; [auto|split; [intros; discriminate|split; intros; discriminate]]]. constructor; cbn; auto.
      + apply NoDup_filter_map. exact Ij.
      + repeat split; auto. intros t0 f X. apply filter_In in X as [X _]. eauto.
  Qed.

  (** ** States in which no [jit_function] has failed since the last clear. *)
  Definition waiting s : Prop := forall id n, In (id, n) (s_names s) -> In id (s_staged s) /\ exists c, In (mkF n id c) (s_module s).
  Definition linked s : Prop := s_finalized s = true /\ s_staged s = [] /\
    forall id n, In (id, n) (s_names s) -> forall t f, In (t, f) (s_jd s) -> f_name f = n -> f_id f = id.
  Definition clean s : Prop := (s_aot s = true /\ s_staged s = []) \/
    (s_aot s = false /\ (forall id, In id (s_staged s) -> exists f, In f (s_module s) /\ f_id f = id) /\ (waiting s \/ linked s)).
  Lemma clean_new aot : clean (new_life aot).
  Proof. destruct aot; [left; auto|]. right. split; [reflexivity|]. split; [contradiction|]. left. intros id n []. Qed.
  Lemma commit_link s B cr ad s' : inv s B -> s_finalized s = true -> clean s -> s_aot s = false -> commit s cr ad = (s', true) ->
    clean s' /\ s_aot s' = false /\ linked s'.
  Proof.
    intros I F C A H. destruct C as [[C _]|(_ & C1 & C2)]; [congruence|]. pose proof (inv_commit _ _ _ _ _ _ I F H) as (I' & F' & EN).
    assert (G : s_aot s' = false /\ linked s' /\ (forall id, In id (s_staged s') -> exists f, In f (s_module s') /\ f_id f = id)).
    { unfold commit in H. rewrite A in H. cbn [orb] in H. destruct (s_staged s) as [|i0 r0] eqn:ES.
      - injection H as <-. split; [exact A|]. split; [|rewrite ES; contradiction]. split; [exact F|]. split; [exact ES|].
        destruct C2 as [W|(_ & _ & L)]; [|exact L]. intros id n Hin. destruct (W _ _ Hin) as [X _]. rewrite ES in X. destruct X.
      - destruct (negb cr); [discriminate|]. destruct (negb ad || clash s); [discriminate|]. injection H as <-. cbn. split; [reflexivity|]. split; [|contradiction].
        split; [exact F|]. split; [reflexivity|]. cbn. destruct C2 as [W|(_ & X & _)]; [|congruence].
        intros id n Hin t f Hf Hn. destruct (W _ _ Hin) as (_ & c & Hm).
        pose proof (iv_j _ _ I') as ND. cbn in ND.
        assert (E : f = mkF n id c); [|rewrite E; reflexivity].
        assert (Hc : In (s_ntr s, mkF n id c) (map (fun f => (s_ntr s, f)) (s_module s) ++ s_jd s)) by (apply in_app_iff; left; apply in_map_iff; eauto).
        revert ND Hc Hf Hn. generalize (map (fun f => (s_ntr s, f)) (s_module s) ++ s_jd s). clear. intros l ND H1 H2 E.
        assert (U : forall (l : list (nat * func)) p q, NoDup (map (fun p => f_name (snd p)) l) -> In p l -> In q l -> f_name (snd p) = f_name (snd q) -> p = q).
        { clear. induction l as [|x l IH]; intros p q ND Hp Hq E; [destruct Hp|]. cbn in ND. inversion ND as [|? ? N1 N2]; subst.
          destruct Hp as [->|Hp], Hq as [->|Hq]; auto.
          - exfalso. apply N1. rewrite E. apply (in_map (fun p => f_name (snd p)) l q Hq).
          - exfalso. apply N1. rewrite <- E. apply (in_map (fun p => f_name (snd p)) l p Hp). }
        pose proof (U l (t, f) (s_ntr s, mkF n id c) ND H2 H1 E) as X. congruence. }
    destruct G as (G1 & G2 & G3). split; [|auto]. right. split; [exact G1|]. split; [exact G3|right; exact G2].
  Qed.
  Definition failed_jit (c : call) (r : res) : bool := match c, r with JitFunction _ _ _ _ _ _ _ _, RErr => true | _, _ => false end.
  Lemma clean_step s c s' r B : inv s B -> clean s -> do_call s c = (s', r) ->
    r <> RUb /\ (failed_jit c r = false -> clean s') /\
    (forall id a b c1 d e g h f, c = JitFunction id a b c1 d e g h -> r = RAddr f -> f_id f = id) /\
    (forall id rm, c = FreeFunction id rm -> r <> RPanic).
  Proof.
    intros I C H. destruct c as [n c p u b|id a b c d e f g|a b c d e|id rm|cr|j cr| |t]; cbn [do_call] in H.
    - destruct (step_inv _ (Translate n c p u b) _ _ _ I H) as (_ & _ & _ & _ & _ & U).
      split; [intros X; destruct (U X) as (? & ? & Y); discriminate|]. split; [|split; intros; discriminate]. intros _.
      unfold translate in H. destruct (s_finalized s) eqn:F; [injection H as <- _; exact C|]. destruct (negb p); [injection H as <- _; exact C|].
      destruct (find_name n (s_module s)) eqn:Fn; [injection H as <- _; exact C|]. unfold build_function in H. rewrite Fn in H.
      match type of H with (let '(_, _) := match find ?a ?b with _ => _ end in _) = _ => assert (X : forall A (y : A), match find a b with Some (_, _) => y | None => y end = y) by (intros; destruct (find a b) as [[? ?]|]; reflexivity) end.
      rewrite X in H. clear X. destruct C as [C|(A & C1 & C2)].
      { left. destruct C as [A C]. rewrite A in H. destruct (_ && _); [injection H as <- _; split; auto|]. destruct u; injection H as <- _; split; auto. }
      rewrite A in H. right. destruct C2 as [W|(X & _)]; [|congruence].
      assert (K : s_aot s' = false /\ s_module s' = s_module s ++ [mkF n (s_counter s) c] /\ s_staged s' = s_counter s :: s_staged s /\ s_names s' = (s_counter s, n) :: s_names s).
      { destruct (_ && _); [injection H as <- _; cbn; auto|]. destruct u; injection H as <- _; cbn; auto. }
      destruct K as (K0 & K1 & K2 & K3). unfold waiting, linked. rewrite K1, K2, K3. split; [exact K0|]. split.
      + intros id [<-|X]; [exists (mkF n (s_counter s) c); split; [apply in_app_iff; right; left; reflexivity|reflexivity]|].
        destruct (C1 _ X) as (f & Hf & E). exists f. split; [apply in_app_iff; auto|exact E].
      + left. intros id m [X|X]; [injection X as <- <-; split; [left; reflexivity|exists c; apply in_app_iff; right; left; reflexivity]|].
        destruct (W _ _ X) as (Y & c0 & Z). split; [right; exact Y|exists c0; apply in_app_iff; auto].
    - destruct (step_inv _ (JitFunction id a b c d e f g) _ _ _ I H) as (_ & _ & _ & _ & _ & U).
      split; [intros X; destruct (U X) as (? & ? & Y); discriminate|].
      unfold jit_function in H. destruct (s_aot s) eqn:A.
      { injection H as <- <-. split; [intros _; exact C|]. split; intros; discriminate. }
      destruct (finalize s a b c) as [s1 ok1] eqn:E1. destruct (inv_finalize _ _ _ _ _ _ _ I E1) as [I1 F1].
      assert (C1 : clean s1 /\ s_aot s1 = false).
      { unfold finalize in E1. destruct (s_finalized s) eqn:F; [injection E1 as <- _; auto|]. destruct (negb a); injection E1 as <- E1; auto. split; [|exact A].
        destruct C as [[C _]|(_ & C1 & [C2|(C2 & _)])]; [congruence| |congruence]. right. split; [exact A|]. split; [exact C1|]. left. exact C2. }
      destruct C1 as [C1 A1]. destruct ok1; cbn [negb] in H; [|injection H as <- <-; split; [discriminate|split; intros; discriminate]].
      destruct (commit s1 d e) as [s2 ok2] eqn:E2. destruct ok2; cbn [negb] in H; [|injection H as <- <-; split; [discriminate|split; intros; discriminate]].
      destruct (commit_link _ _ _ _ _ I1 (F1 eq_refl) C1 A1 E2) as (C2 & A2 & L2).
      destruct (name_of id (s_names s2)) as [m|] eqn:EN; [|injection H as <- <-; split; [auto|split; intros; discriminate]].
      destruct f; cbn [negb] in H; [|injection H as <- <-; split; [discriminate|split; intros; discriminate]].
      destruct (find_name m (map snd (s_jd s2))) as [h|] eqn:E3; injection H as <- <-; [|split; [discriminate|split; intros; discriminate]].
      split; [auto|]. split; [|intros; discriminate]. intros id0 a0 b0 c0 d0 e0 g0 h0 f0 X Er. injection X as <- <- <- <- <- <- <- <-.
      destruct g; [|discriminate]. injection Er as <-. apply find_name_some in E3 as [E3 E4]. apply in_map_iff in E3 as ([t h'] & X & E5). cbn in X. subst h'.
      destruct L2 as (_ & _ & L2). eapply L2; eauto. apply name_of_some. exact EN.
    - destruct (step_inv _ (WriteObject a b c d e) _ _ _ I H) as (_ & _ & _ & _ & _ & U).
      split; [intros X; destruct (U X) as (? & ? & Y); discriminate|]. split; [|split; intros; discriminate]. intros _.
      unfold write_object in H. destruct (finalize s a b c) as [s1 ok1] eqn:E1.
      assert (s' = s1) as -> by (destruct ok1; cbn [negb] in H; congruence).
      unfold finalize in E1. destruct (s_finalized s) eqn:F; [injection E1 as <- _; auto|]. destruct (negb a); injection E1 as <- E1; auto.
      destruct C as [C|(A & C1 & [C2|(C2 & _)])]; [left; exact C| |congruence]. right. split; [exact A|]. split; [exact C1|]. left. exact C2.
    - unfold free_function in H. destruct (mem id (s_staged s) && _) eqn:D.
      { injection H as <- <-. exfalso. apply andb_true_iff in D as [D1 D2]. apply mem_In in D1. destruct C as [[_ C]|(_ & C1 & _)]; [rewrite C in D1; destruct D1|].
        destruct (C1 _ D1) as (f & Hf & E). apply negb_true_iff, not_true_iff_false in D2. apply D2. apply existsb_exists. exists f. split; [exact Hf|apply Nat.eqb_eq; exact E]. }
      assert (SF : forall i, In i (filter (fun i => negb (i =? id)) (s_staged s)) <-> In i (s_staged s) /\ i <> id).
      { intros i. rewrite filter_In, negb_true_iff, Nat.eqb_neq. tauto. }
      assert (MF : forall f, f_id f <> id -> In f (s_module s) -> In f (if mem id (s_staged s) then filter (fun f => negb (f_id f =? id)) (s_module s) else s_module s)).
      { intros f N Hf. destruct (mem _ _); [|exact Hf]. apply filter_In. split; [exact Hf|]. apply negb_true_iff, Nat.eqb_neq. exact N. }
      assert (G : forall names com trk jd, (forall i n, In (i, n) names -> In (i, n) (s_names s) /\ (i <> id \/ ~ In i (s_staged s))) -> (forall t f, In (t, f) jd -> In (t, f) (s_jd s)) ->
        clean (mkLife (s_aot s) (s_finalized s) (s_builtins s) (s_mid s) (if mem id (s_staged s) then filter (fun f => negb (f_id f =? id)) (s_module s) else s_module s) (s_counter s)
                names (filter (fun i => negb (i =? id)) (s_staged s)) com trk (s_ntr s) jd (s_runs s))).
      { intros names com trk jd HN HJ. destruct C as [[C C']|(A & C1 & C2)].
        - left. cbn. split; [exact C|]. rewrite C'. reflexivity.
        - right. cbn. split; [exact A|]. split.
          + intros i X. apply SF in X as [X N]. destruct (C1 _ X) as (f & Hf & E). exists f. split; [apply MF; [congruence|exact Hf]|exact E].
          + destruct C2 as [W|(L1 & L2 & L3)]; [left|right].
            * intros i n X. cbn in X |- *. destruct (HN _ _ X) as [X1 X2]. destruct (W _ _ X1) as (Y & c & Z).
              destruct X2 as [X2|X2]; [|contradiction]. split; [apply SF; auto|]. exists c. apply MF; auto.
            * split; [exact L1|]. split; [cbn; rewrite L2; reflexivity|]. cbn. intros i n X t f Hf. destruct (HN _ _ X) as [X1 _]. eapply L3; eauto. }
      destruct (find (fun p => fst p =? id) (s_committed s)) as [[x t]|] eqn:EC.
      + apply find_some in EC as [EC1 EC2]. cbn in EC2. apply Nat.eqb_eq in EC2. subst x. destruct (iv_c _ _ I _ _ EC1) as (K1 & K2 & K3).
        destruct (negb rm).
        * injection H as <- <-. split; [discriminate|]. split; [|split; intros; discriminate]. intros _. apply G; [|auto].
          intros i n X. split; [exact X|]. destruct (Nat.eq_dec i id) as [->|N]; auto.
        * destruct (nth_error (s_trackers s) t) as [tr|] eqn:ET; [|exfalso; apply nth_error_None in ET; lia].
          injection H as <- <-. split; [discriminate|]. split; [|split; intros; discriminate]. intros _. apply G.
          -- intros i n X. apply filter_In in X as [X1 X2]. split; [exact X1|]. left. intros ->. cbn in X2. rewrite Nat.eqb_refl in X2. discriminate.
          -- intros t0 f X. apply filter_In in X. tauto.
      + injection H as <- <-. split; [discriminate|]. split; [|split; intros; discriminate]. intros _. apply G; [|auto].
        intros i n X. apply filter_In in X as [X1 X2]. split; [exact X1|]. left. cbn in X2. apply negb_true_iff, Nat.eqb_neq in X2. exact X2.
    - unfold clear_ir in H. destruct cr; injection H as <- <-; (split; [discriminate|]; split; [|split; intros; discriminate]); intros _.
      + destruct C as [[C _]|(A & _)]; [left; auto|]. right. split; [exact A|]. split; [contradiction|]. left. intros id n [].
      + destruct C as [C|(A & C1 & C2)]; [left; exact C|right]. split; [exact A|]. split; [exact C1|]. left. intros id n [].
    - unfold clear in H. destruct (negb j); [|destruct (negb cr)]; injection H as <- <-; (split; [discriminate|]; split; [|split; intros; discriminate]); intros _; (destruct C as [[C _]|(A & _)]; [left; auto|right; split; [exact A|]; split; [contradiction|left; intros id n []]]).
    - unfold take_tracker in H. destruct (rev _); injection H as <- <-; (split; [discriminate|]; split; [|split; intros; discriminate]); intros _; exact C.
    - unfold drop_tracker in H. injection H as <- <-. split; [discriminate|]; split; [|split; intros; discriminate]. intros _.
      destruct C as [C|(A & C1 & C2)]; [left; exact C|right]. split; [exact A|]. split; [exact C1|]. destruct C2 as [W|(L1 & L2 & L3)]; [left; exact W|right].
      split; [exact L1|]. split; [exact L2|]. cbn. intros id n X t0 f Hf. apply filter_In in Hf as [Hf _]. eapply L3; eauto.
  Qed.

  (** ** Whole histories. *)
  Lemma nodup_id (B : list func) f g : NoDup (map f_id B) -> In f B -> In g B -> f_id f = f_id g -> f = g.
  Proof.
    induction B as [|x l IH]; intros ND Hp Hq E; [destruct Hp|]. cbn in ND. inversion ND as [|? ? N1 N2]; subst.
    destruct Hp as [->|Hp], Hq as [->|Hq]; auto.
    - exfalso. apply N1. rewrite E. apply (in_map f_id l g Hq).
    - exfalso. apply N1. rewrite <- E. apply (in_map f_id l f Hp).
  Qed.
  Definition next_dirty (dirty : bool) (c : call) (r : res) : bool :=
    match c, r with
    | JitFunction _ _ _ _ _ _ _ _, RErr => true
    | ClearIr _, ROk | Clear _ _, ROk => false
    | _, _ => dirty
    end.
  Lemma tidy_cons dirty c r l : tidy dirty ((c, r) :: l) ->
    (match c with JitFunction _ _ _ _ _ _ _ _ | FreeFunction _ _ => dirty = false | _ => True end) /\ tidy (next_dirty dirty c r) l.
  Proof. destruct c, r; cbn; tauto. Qed.
  Lemma tidy_step s c s' r B dirty : inv s B -> (dirty = false -> clean s) -> do_call s c = (s', r) ->
    (match c with JitFunction _ _ _ _ _ _ _ _ | FreeFunction _ _ => dirty = false | _ => True end) ->
    r <> RUb /\ (next_dirty dirty c r = false -> clean s') /\
    (forall id a b c1 d e g h f, c = JitFunction id a b c1 d e g h -> r = RAddr f -> f_id f = id) /\
    (forall id rm, c = FreeFunction id rm -> r <> RPanic).
  Proof.
    intros I C H T. destruct dirty.
    - destruct (step_inv _ _ _ _ _ I H) as (_ & _ & _ & _ & _ & U).
      assert (G : (next_dirty true c r = false -> clean s') -> (match c with FreeFunction _ _ | JitFunction _ _ _ _ _ _ _ _ => False | _ => True end) ->
        r <> RUb /\ (next_dirty true c r = false -> clean s') /\
        (forall id a b c1 d e g h f, c = JitFunction id a b c1 d e g h -> r = RAddr f -> f_id f = id) /\
        (forall id rm, c = FreeFunction id rm -> r <> RPanic)).
      { intros X Y. split; [intros Z; destruct (U Z) as (? & ? & W); rewrite W in Y; exact Y|]. split; [exact X|]. split; intros; subst c; contradiction. }
      apply G; clear G; [|destruct c; auto; discriminate].
      destruct c as [n c p u b|id a b c d e f g|a b c d e|id rm|cr|j cr| |t]; cbn [do_call] in H; try (destruct r; discriminate).
      + unfold clear_ir in H. destruct cr; injection H as <- <-; [|discriminate]. intros _.
        destruct (s_aot s) eqn:A; [left; auto|right; split; [reflexivity|]]. split; [contradiction|]. left. intros id n [].
      + unfold clear in H. destruct (negb j); [injection H as <- <-; discriminate|]. destruct (negb cr); injection H as <- <-; [discriminate|]. intros _.
        destruct (s_aot s) eqn:A; [left; auto|right; split; [reflexivity|]]. split; [contradiction|]. left. intros id n [].
    - specialize (C eq_refl). destruct (clean_step _ _ _ _ _ I C H) as (K1 & K2 & K3 & K4). split; [exact K1|]. split; [|auto].
      intros X. apply K2. destruct c, r; cbn in X |- *; try reflexivity; discriminate.
  Qed.
  Lemma history l : forall s s' rs B dirty, inv s B -> (dirty = false -> clean s) -> calls s l = (s', rs) -> tidy dirty (combine l rs) ->
    (exists B', inv s' B' /\ forall f, In f B -> In f B') /\
    (forall e, In e (combine l rs) -> snd e <> RUb /\ (forall id rm, fst e = FreeFunction id rm -> snd e <> RPanic)) /\
    (forall f0, In f0 B -> forall a b c1 d e g h f, In (JitFunction (f_id f0) a b c1 d e g h, RAddr f) (combine l rs) -> f = f0).
  Proof.
    induction l as [|c l IH]; intros s s' rs B dirty I C H T; cbn in H.
    - injection H as <- <-. split; [exists B; auto|]. split; [intros e []|intros f0 _ a b c1 d e g h f []].
    - destruct (do_call s c) as [s1 r] eqn:E. destruct (calls s1 l) as [s2 r2] eqn:E2. injection H as <- <-. cbn [combine] in T |- *.
      apply tidy_cons in T as [T1 T2]. destruct (tidy_step _ _ _ _ _ _ I C E T1) as (K1 & K2 & K3 & K4).
      destruct (step_inv _ _ _ _ _ I E) as (B1 & I1 & Sub & _ & Ad & _).
      destruct (IH _ _ _ B1 _ I1 K2 E2 T2) as ((B2 & I2 & Sub2) & G1 & G2).
      split; [exists B2; auto|]. split.
      + intros e [<-|He]; [cbn; split; [exact K1|]; intros id rm ->; eapply K4; eauto|apply G1; exact He].
      + intros f0 Hf0 a b c1 d e g h f [X|X]; [|eapply G2; eauto].
        injection X as X ->. destruct I1 as [? ? ? ? ? ? ? (_ & _ & ND & _)]. eapply nodup_id; [exact ND|auto|auto|]. eapply K3; eauto.
  Qed.
  Theorem own_code aot l s rs k j n c p u b id a1 a2 a3 a4 a5 a6 a7 f : calls (new_life aot) l = (s, rs) -> tidy false (combine l rs) ->
    nth_error (combine l rs) k = Some (Translate n c p u b, RId id) ->
    nth_error (combine l rs) j = Some (JitFunction id a1 a2 a3 a4 a5 a6 a7, RAddr f) -> k < j -> f = mkF n id c.
  Proof.
    intros H T Hk Hj L.
    assert (G : forall l s s' rs B dirty k j, inv s B -> (dirty = false -> clean s) -> calls s l = (s', rs) -> tidy dirty (combine l rs) ->
      nth_error (combine l rs) k = Some (Translate n c p u b, RId id) ->
      nth_error (combine l rs) j = Some (JitFunction id a1 a2 a3 a4 a5 a6 a7, RAddr f) -> k < j -> f = mkF n id c).
    { clear. induction l as [|c0 l IH]; intros s s' rs B dirty k j I C H T Hk Hj L; cbn in H; [injection H as <- <-; destruct k; discriminate|].
      destruct (do_call s c0) as [s1 r] eqn:E. destruct (calls s1 l) as [s2 r2] eqn:E2. injection H as <- <-. cbn [combine] in *.
      apply tidy_cons in T as [T1 T2]. destruct (tidy_step _ _ _ _ _ _ I C E T1) as (K1 & K2 & K3 & K4).
      destruct (step_inv _ _ _ _ _ I E) as (B1 & I1 & Sub & Tr & _). destruct j as [|j]; [lia|]. cbn in Hj.
      destruct k as [|k]; cbn in Hk.
      - injection Hk as -> ->. destruct (Tr _ _ _ _ _ _ eq_refl eq_refl) as [X _].
        destruct (history _ _ _ _ _ _ I1 K2 E2 T2) as (_ & _ & G). specialize (G _ X). cbn in G. eapply G. eapply nth_error_In; eauto.
      - eapply IH; eauto. lia. }
    eapply G; eauto using inv_new. intros _. apply clean_new.
  Qed.
  Theorem no_ub aot l s rs : calls (new_life aot) l = (s, rs) -> tidy false (combine l rs) ->
    ~ In RUb rs /\ (forall id rm, ~ In (FreeFunction id rm, RPanic) (combine l rs)).
  Proof.
    intros H T. destruct (history l _ _ _ _ _ (inv_new aot) (fun _ => clean_new aot) H T) as (_ & G & _). split.
    - intros X. pose proof (calls_length _ _ _ _ H) as L. apply In_nth_error in X as [k X].
      assert (exists c, nth_error l k = Some c) as [c Hc]. { destruct (nth_error l k) eqn:E; [eauto|]. apply nth_error_None in E. assert (nth_error rs k <> None) by congruence. apply nth_error_Some in H0. lia. }
      assert (In (c, RUb) (combine l rs)) as Hin.
      { clear -X Hc. revert rs k X Hc. induction l as [|a l IH]; intros [|r rs] [|k] X Hc; cbn in *; try discriminate; [left; congruence|right; eauto]. }
      apply (proj1 (G _ Hin)). reflexivity.
    - intros id rm X. apply (proj2 (G _ X) id rm eq_refl). reflexivity.
  Qed.
  (** A handle cached from another module is never used, whatever the caller does. *)
  Theorem ub_only_free aot l s rs c : calls (new_life aot) l = (s, rs) -> In (c, RUb) (combine l rs) -> exists id rm, c = FreeFunction id rm.
  Proof.
    assert (G : forall l s s' rs B, inv s B -> calls s l = (s', rs) -> In (c, RUb) (combine l rs) -> exists id rm, c = FreeFunction id rm).
    { clear. induction l as [|c0 l IH]; intros s s' rs B I H X; cbn in H; [injection H as <- <-; destruct X|].
      destruct (do_call s c0) as [s1 r] eqn:E. destruct (calls s1 l) as [s2 r2] eqn:E2. injection H as <- <-. cbn [combine] in X.
      destruct (step_inv _ _ _ _ _ I E) as (B1 & I1 & _ & _ & _ & U). destruct X as [X|X]; [injection X as -> ->; auto|eauto]. }
    eapply G. apply inv_new.
  Qed.
  Lemma reachable_inv l : forall s s' rs B, inv s B -> calls s l = (s', rs) -> exists B', inv s' B'.
  Proof.
    induction l as [|c0 l IH]; intros s s' rs B I H; cbn in H; [injection H as <- <-; eauto|].
    destruct (do_call s c0) as [s1 r] eqn:E. destruct (calls s1 l) as [s2 r2] eqn:E2. injection H as <- <-.
    destruct (step_inv _ _ _ _ _ I E) as (B1 & I1 & _). eauto.
  Qed.

  (** ** After a clear the instance behaves like a new one, with ids and trackers counted from later on. *)
  Definition shift (k q w z : nat) (s : life) : life :=
    mkLife (s_aot s) (s_finalized s) (option_map (fun m => m + w) (s_builtins s)) (s_mid s + w) (map (shf k) (s_module s)) (s_counter s + k)
      (map (fun p => (fst p + k, snd p)) (s_names s)) (map (fun i => i + k) (s_staged s)) (map (fun p => (fst p + k, snd p)) (s_committed s))
      (map (fun t => t + q) (s_trackers s)) (s_ntr s + q) (map (fun p => (fst p + q, shf k (snd p))) (s_jd s)) (s_runs s + z).
  Lemma eqb_shift a b k : (a + k =? b + k) = (a =? b).
  Proof. destruct (Nat.eqb_spec a b) as [->|N]; [apply Nat.eqb_refl|apply Nat.eqb_neq; lia]. Qed.
  Lemma find_map {A C} (g : A -> C) p l : find p (map g l) = option_map g (find (fun x => p (g x)) l).
  Proof. induction l as [|x l IH]; cbn; [reflexivity|]. destruct (p (g x)); [reflexivity|exact IH]. Qed.
  Lemma filter_map {A C} (g : A -> C) p l : filter p (map g l) = map g (filter (fun x => p (g x)) l).
  Proof. induction l as [|x l IH]; cbn; [reflexivity|]. destruct (p (g x)); cbn; congruence. Qed.
  Lemma existsb_map {A C} (g : A -> C) p l : existsb p (map g l) = existsb (fun x => p (g x)) l.
  Proof. induction l as [|x l IH]; cbn; congruence. Qed.
  Lemma find_ext' {A} (p q : A -> bool) l : (forall x, p x = q x) -> find p l = find q l.
  Proof. intros H. induction l as [|x l IH]; cbn; [reflexivity|]. rewrite H, IH. reflexivity. Qed.
  Lemma filter_ext' {A} (p q : A -> bool) l : (forall x, p x = q x) -> filter p l = filter q l.
  Proof. intros H. induction l as [|x l IH]; cbn; [reflexivity|]. rewrite H, IH. reflexivity. Qed.
  Lemma existsb_ext' {A} (p q : A -> bool) l : (forall x, p x = q x) -> existsb p l = existsb q l.
  Proof. intros H. induction l as [|x l IH]; cbn; [reflexivity|]. rewrite H, IH. reflexivity. Qed.
  Lemma mem_shift k x l : mem (x + k) (map (fun i => i + k) l) = mem x l.
  Proof. unfold mem. rewrite existsb_map. apply existsb_ext'. intros y. apply eqb_shift. Qed.
  Lemma find_name_shift k n (l : list func) : find_name n (map (shf k) l) = option_map (shf k) (find_name n l).
  Proof. unfold find_name. rewrite find_map. reflexivity. Qed.
  Lemma name_of_shift k id l : name_of (id + k) (map (fun p => (fst p + k, snd p)) l) = name_of id l.
  Proof.
    unfold name_of. rewrite find_map. cbn. rewrite (find_ext' _ (fun p => fst p =? id)) by (intros p; apply eqb_shift). destruct (find _ l) as [[? ?]|]; reflexivity.
  Qed.
  Lemma finalize_shift k q w z s b o a : finalize (shift k q w z s) b o a = (let '(s', ok) := finalize s b o a in (shift k q w z s', ok)).
  Proof. unfold finalize. cbn. destruct (s_finalized s); [reflexivity|]. destruct (negb b); reflexivity. Qed.
  Lemma clash_shift k q w z s : clash (shift k q w z s) = clash s.
  Proof. unfold clash. cbn. rewrite existsb_map. apply existsb_ext'. intros f. rewrite existsb_map. reflexivity. Qed.
  Lemma commit_shift k q w z s cr ad : commit (shift k q w z s) cr ad = (let '(s', ok) := commit s cr ad in (shift k q w z s', ok)).
  Proof.
    unfold commit. rewrite clash_shift. cbn. destruct (s_staged s) as [|i l]; cbn; [rewrite orb_true_r; reflexivity|]. destruct (s_aot s); cbn; [reflexivity|].
    destruct (negb cr); [reflexivity|]. destruct (negb ad || clash s); [reflexivity|].
    unfold shift. cbn. rewrite !map_app, !map_map, map_length. cbn. reflexivity.
  Qed.
  Lemma step_shift k q w z s c : do_call (shift k q w z s) (shift_call k q c) = (let '(s', r) := do_call s c in (shift k q w z s', shift_res k q r)).
  Proof.
    destruct c as [n c p u b|id a b c d e f g|a b c d e|id rm|cr|j cr| |t]; cbn [do_call shift_call].
    - unfold translate. change (s_finalized (shift k q w z s)) with (s_finalized s). destruct (s_finalized s) eqn:F; [reflexivity|]. destruct (negb p); [reflexivity|].
      change (s_module (shift k q w z s)) with (map (shf k) (s_module s)). rewrite find_name_shift. destruct (find_name n (s_module s)) eqn:Fn; [reflexivity|]. cbn [option_map].
      unfold build_function. change (s_module (shift k q w z s)) with (map (shf k) (s_module s)). rewrite find_name_shift, Fn. cbn [option_map].
      assert (X : forall A B (o : option (nat * nat)) (y : A) (g : A -> B), g match o with Some (_, _) => y | None => y end = g y) by (intros; destruct o as [[? ?]|]; reflexivity).
      assert (Y : forall A (o : option (nat * nat)) (y : A), match o with Some (_, _) => y | None => y end = y) by (intros; destruct o as [[? ?]|]; reflexivity).
      rewrite !Y. cbn [s_builtins s_mid shift].
      assert (Z : match option_map (fun m => m + w) (s_builtins s) with Some m => negb (m =? s_mid s + w) | None => false end = match s_builtins s with Some m => negb (m =? s_mid s) | None => false end).
      { destruct (s_builtins s); cbn; [rewrite eqb_shift|]; reflexivity. }
      rewrite Z. destruct (u && _); [unfold shift; cbn; rewrite map_app; destruct (s_aot s); reflexivity|].
      destruct u; (unfold shift; cbn; rewrite map_app; destruct (s_aot s), b; reflexivity).
    - unfold jit_function. change (s_aot (shift k q w z s)) with (s_aot s). destruct (s_aot s) eqn:A; [reflexivity|]. rewrite finalize_shift. destruct (finalize s a b c) as [s1 ok1]. destruct ok1; cbn [negb]; [|reflexivity].
      rewrite commit_shift. destruct (commit s1 d e) as [s2 ok2]. destruct ok2; cbn [negb]; [|reflexivity].
      cbn [s_names shift]. rewrite name_of_shift. destruct (name_of id (s_names s2)); [|reflexivity]. destruct f; cbn [negb]; [|reflexivity].
      cbn [s_jd shift]. rewrite map_map. cbn. rewrite <- (map_map snd (shf k)), find_name_shift. destruct (find_name _ _); cbn; [|reflexivity]. destruct g; reflexivity.
    - unfold write_object. rewrite finalize_shift. destruct (finalize s a b c) as [s1 ok1]. destruct ok1; cbn [negb]; [|reflexivity]. destruct (d && e); reflexivity.
    - unfold free_function. cbn [s_aot s_finalized s_builtins s_mid s_module s_counter s_names s_staged s_committed s_trackers s_ntr s_jd s_runs shift].
      rewrite mem_shift, existsb_map. cbn. rewrite (existsb_ext' _ (fun f => f_id f =? id)) by (intros; apply eqb_shift).
      destruct (_ && _); [reflexivity|].
      assert (M : (if mem id (s_staged s) then filter (fun f => negb (f_id f =? id + k)) (map (shf k) (s_module s)) else map (shf k) (s_module s)) =
                  map (shf k) (if mem id (s_staged s) then filter (fun f => negb (f_id f =? id)) (s_module s) else s_module s)).
      { destruct (mem _ _); [|reflexivity]. rewrite filter_map. f_equal. apply filter_ext'. intros f. cbn. rewrite eqb_shift. reflexivity. }
      assert (T : filter (fun i => negb (i =? id + k)) (map (fun i => i + k) (s_staged s)) = map (fun i => i + k) (filter (fun i => negb (i =? id)) (s_staged s))).
      { rewrite filter_map. f_equal. apply filter_ext'. intros f. cbn. rewrite eqb_shift. reflexivity. }
      assert (CF : filter (fun p => negb (fst p =? id + k)) (map (fun p => (fst p + k, snd p)) (s_committed s)) = map (fun p => (fst p + k, snd p)) (filter (fun p => negb (fst p =? id)) (s_committed s))).
      { rewrite filter_map. f_equal. apply filter_ext'. intros f. cbn. rewrite eqb_shift. reflexivity. }
      rewrite find_map. cbn. rewrite (find_ext' _ (fun p => fst p =? id)) by (intros; apply eqb_shift).
      destruct (find _ (s_committed s)) as [[x t]|]; cbn [option_map fst snd].
      + destruct (negb rm); [unfold shift; cbn; rewrite M, T, CF; reflexivity|].
        rewrite nth_error_map. destruct (nth_error (s_trackers s) t) as [tr|]; cbn [option_map]; [|reflexivity].
        rewrite CF, M, T. unfold shift. cbn. f_equal. rewrite !filter_map, !map_map. cbn.
        f_equal; f_equal; apply filter_ext'; intros y; cbn; rewrite eqb_shift; [|reflexivity].
        f_equal. f_equal. clear. rewrite <- (map_map fst (fun i => i + k)). apply mem_shift.
      + unfold shift. cbn. rewrite M, T. f_equal. rewrite filter_map. f_equal. f_equal. apply filter_ext'. intros y. cbn. rewrite eqb_shift. reflexivity.
    - unfold clear_ir. destruct cr; reflexivity.
    - unfold clear. destruct (negb j); [reflexivity|]. destruct (negb cr); reflexivity.
    - unfold take_tracker. cbn [s_trackers shift]. rewrite <- map_rev. destruct (rev (s_trackers s)) as [|t r]; cbn [map]; [reflexivity|].
      unfold shift. cbn. rewrite map_length, filter_map, map_rev. reflexivity.
    - unfold drop_tracker, shift. cbn. rewrite filter_map. f_equal. f_equal. f_equal. apply filter_ext'. intros y. cbn. rewrite eqb_shift. reflexivity.
  Qed.
  Lemma calls_shift k q w z l : forall s, calls (shift k q w z s) (map (shift_call k q) l) = (let '(s', rs) := calls s l in (shift k q w z s', map (shift_res k q) rs)).
  Proof.
    induction l as [|c l IH]; intros s; cbn [calls map]; [reflexivity|]. rewrite step_shift. destruct (do_call s c) as [s1 r]. rewrite IH. destruct (calls s1 l). reflexivity.
  Qed.
  Lemma clear_fresh s j cr s' : clear s j cr = (s', ROk) -> s' = shift (s_counter s) (s_ntr s) (S (s_mid s)) (s_runs s) (new_life (s_aot s)).
  Proof. unfold clear. destruct (negb j); [discriminate|]. destruct (negb cr); [discriminate|]. intros H. injection H as <-. reflexivity. Qed.
  (** Ids and trackers from before the clear mean nothing afterwards. *)
  Lemma filter_all {A} (p : A -> bool) l : (forall x, In x l -> p x = true) -> filter p l = l.
  Proof. intros H. induction l as [|x l IH]; cbn; [reflexivity|]. rewrite H by (left; reflexivity). f_equal. apply IH. intros y Y. apply H. right. exact Y. Qed.
  Lemma stale_drop k q w z s t : t < q -> drop_tracker (shift k q w z s) t = (shift k q w z s, ROk).
  Proof.
    intros L. unfold drop_tracker. unfold shift at 14. cbn [s_jd shift]. f_equal. unfold shift. cbn. f_equal. apply filter_all.
    intros x Hx. apply in_map_iff in Hx as (y & <- & _). cbn. apply negb_true_iff, Nat.eqb_neq. lia.
  Qed.
  Lemma stale_free k q w z s id rm : id < k -> free_function (shift k q w z s) id rm = (shift k q w z s, ROk).
  Proof.
    intros L. unfold free_function.
    assert (M : mem id (s_staged (shift k q w z s)) = false).
    { apply not_true_is_false. unfold mem. rewrite existsb_exists. intros (x & Hx & E). cbn in Hx. apply in_map_iff in Hx as (y & <- & _). apply Nat.eqb_eq in E. lia. }
    rewrite M. cbn [andb].
    assert (F : find (fun p : nat * nat => fst p =? id) (s_committed (shift k q w z s)) = None).
    { destruct (find _ _) as [p|] eqn:E; [|reflexivity]. apply find_some in E as [E1 E2]. cbn in E1. apply in_map_iff in E1 as (y & <- & _). apply Nat.eqb_eq in E2. cbn in E2. lia. }
    rewrite F. f_equal. unfold shift. cbn. f_equal.
    - apply filter_all. intros x Hx. apply in_map_iff in Hx as (y & <- & _). cbn. apply negb_true_iff, Nat.eqb_neq. lia.
    - apply filter_all. intros x Hx. apply in_map_iff in Hx as (y & <- & _). cbn. apply negb_true_iff, Nat.eqb_neq. lia.
  Qed.

  (** ** Asking for a translated function does not panic. *)
  Lemma names_step s c s' r : do_call s c = (s', r) -> is_clear c = false -> (forall id rm, c <> FreeFunction id rm) ->
    (forall p, In p (s_names s) -> In p (s_names s')) /\ (forall n cd p u b id, c = Translate n cd p u b -> r = RId id -> In (id, n) (s_names s')).
  Proof.
    intros H NC NF. destruct c as [n c p u b|id a b c d e f g|a b c d e|id rm|cr|j cr| |t]; try discriminate NC; cbn [do_call] in H.
    - unfold translate in H. destruct (s_finalized s); [injection H as <- <-; split; auto; discriminate|]. destruct (negb p); [injection H as <- <-; split; auto; discriminate|].
      destruct (find_name n (s_module s)) eqn:Fn; [injection H as <- <-; split; auto; discriminate|]. unfold build_function in H. rewrite Fn in H.
      assert (Y : forall A (o : option (nat * nat)) (y : A), match o with Some (_, _) => y | None => y end = y) by (intros; destruct o as [[? ?]|]; reflexivity).
      rewrite Y in H. destruct (_ && _); [injection H as <- <-; cbn; split; auto; discriminate|].
      destruct u; injection H as <- <-; cbn; (split; [auto|]; intros n0 cd p0 u0 b0 id E; injection E as -> _ _ _ _; destruct b; [intros E; injection E as <-; auto|discriminate]).
    - split; [|discriminate]. unfold jit_function in H. destruct (s_aot s); [injection H as <- <-; auto|]. destruct (finalize s a b c) as [s1 ok1] eqn:E1.
      assert (N1 : s_names s1 = s_names s). { unfold finalize in E1. destruct (s_finalized s); [congruence|]. destruct (negb a); injection E1 as <- _; reflexivity. }
      destruct ok1; cbn [negb] in H; [|injection H as <- <-; rewrite N1; auto]. destruct (commit s1 d e) as [s2 ok2] eqn:E2.
      assert (N2 : s_names s2 = s_names s1). { unfold commit in E2. destruct (_ || _); [congruence|]. destruct (negb d); [congruence|]. destruct (_ || _); injection E2 as <- _; reflexivity. }
      assert (s' = s2) as ->. { destruct ok2; cbn [negb] in H; [|congruence]. destruct (name_of _ _); [|congruence]. destruct f; cbn [negb] in H; [|congruence]. destruct (find_name _ _); congruence. }
      rewrite N2, N1. auto.
    - split; [|discriminate]. unfold write_object in H. destruct (finalize s a b c) as [s1 ok1] eqn:E1.
      assert (N1 : s_names s1 = s_names s). { unfold finalize in E1. destruct (s_finalized s); [congruence|]. destruct (negb a); injection E1 as <- _; reflexivity. }
      assert (s' = s1) as -> by (destruct ok1; cbn [negb] in H; congruence). rewrite N1. auto.
    - exfalso. eapply NF. reflexivity.
    - unfold take_tracker in H. split; [|discriminate]. destruct (rev _); injection H as <- <-; auto.
    - unfold drop_tracker in H. split; [|discriminate]. injection H as <- <-; auto.
  Qed.
  Lemma name_of_in id n l : In (id, n) l -> name_of id l <> None.
  Proof.
    unfold name_of. intros H. destruct (find _ l) eqn:E; [discriminate|]. eapply find_none in E; [|exact H]. cbn in E. rewrite Nat.eqb_refl in E. discriminate.
  Qed.
  Lemma panic_unknown s id (a b c d e lk g : bool) s' : jit_function s id a b c d e lk g = (s', RPanic) -> name_of id (s_names s) = None.
  Proof.
    unfold jit_function. destruct (s_aot s); [discriminate|]. destruct (finalize s a b c) as [s1 ok1] eqn:E1.
    assert (N1 : s_names s1 = s_names s). { unfold finalize in E1. destruct (s_finalized s); [congruence|]. destruct (negb a); injection E1 as <- _; reflexivity. }
    destruct ok1; cbn [negb]; [|discriminate]. destruct (commit s1 d e) as [s2 ok2] eqn:E2.
    assert (N2 : s_names s2 = s_names s1). { unfold commit in E2. destruct (_ || _); [congruence|]. destruct (negb d); [congruence|]. destruct (_ || _); injection E2 as <- _; reflexivity. }
    destruct ok2; cbn [negb]; [|discriminate]. rewrite N2, N1. destruct (name_of id (s_names s)); [|reflexivity]. destruct (negb lk); [discriminate|]. destruct (find_name _ _); [destruct g|]; discriminate.
  Qed.
  Lemma combine_app {A C} (l1 l2 : list A) : forall (m1 m2 : list C), length l1 = length m1 -> combine (l1 ++ l2) (m1 ++ m2) = combine l1 m1 ++ combine l2 m2.
  Proof. induction l1 as [|x l1 IH]; intros [|y m1] m2 H; cbn in *; try discriminate; [reflexivity|]. f_equal. apply IH. congruence. Qed.
  Theorem panic_only aot l1 n c p u b l2 l3 s rs r2 id a1 a2 a3 a4 a5 a6 a7 rr :
    calls (new_life aot) (l1 ++ Translate n c p u b :: l2 ++ JitFunction id a1 a2 a3 a4 a5 a6 a7 :: l3) = (s, rs) ->
    combine (l1 ++ Translate n c p u b :: l2 ++ JitFunction id a1 a2 a3 a4 a5 a6 a7 :: l3) rs = rr ->
    nth_error rr (length l1) = Some (Translate n c p u b, RId id) ->
    nth_error rr (length l1 + S (length l2)) = Some (JitFunction id a1 a2 a3 a4 a5 a6 a7, r2) ->
    Forall (fun c => is_clear c = false /\ forall id rm, c <> FreeFunction id rm) l2 -> r2 <> RPanic.
  Proof.
    intros H <- Hk Hj HF. rewrite calls_app in H. destruct (calls (new_life aot) l1) as [s1 r1] eqn:E1. pose proof (calls_length _ _ _ _ E1) as L1.
    cbn [calls] in H. destruct (do_call s1 (Translate n c p u b)) as [s2 rt] eqn:Et.
    destruct (calls s2 _) as [s3 r3] eqn:E3. injection H as <- <-. rewrite combine_app in Hk, Hj by congruence.
    rewrite nth_error_app2 in Hk, Hj by (rewrite combine_length; lia). rewrite combine_length in Hk, Hj.
    replace (length l1 - Nat.min (length l1) (length r1)) with 0 in Hk by lia. cbn in Hk. injection Hk as ->.
    replace (length l1 + S (length l2) - Nat.min (length l1) (length r1)) with (S (length l2)) in Hj by lia. cbn [combine nth_error] in Hj.
    destruct (names_step _ _ _ _ Et eq_refl ltac:(discriminate)) as [_ K]. specialize (K _ _ _ _ _ _ eq_refl eq_refl).
    rewrite calls_app in E3. destruct (calls s2 l2) as [s4 r4] eqn:E4. pose proof (calls_length _ _ _ _ E4) as L4.
    cbn [calls] in E3. destruct (do_call s4 _) as [s5 rj] eqn:Ej. destruct (calls s5 l3) as [s6 r6]. injection E3 as <- <-.
    rewrite combine_app in Hj by congruence. rewrite nth_error_app2 in Hj by (rewrite combine_length; lia). rewrite combine_length in Hj.
    replace (length l2 - Nat.min (length l2) (length r4)) with 0 in Hj by lia. cbn in Hj. injection Hj as <-.
    assert (G : In (id, n) (s_names s4)).
    { clear -K E4 HF. revert s2 s4 r4 K E4. induction HF as [|c0 l [C1 C2] HF IH]; intros s2 s4 r4 K E4; cbn in E4; [injection E4 as <- _; exact K|].
      destruct (do_call s2 c0) as [s5 r5] eqn:E5. destruct (calls s5 l) as [s6 r6] eqn:E6. injection E4 as <- _. eapply IH; [|exact E6].
      apply (proj1 (names_step _ _ _ _ E5 C1 C2)). exact K. }
    intros ->. apply panic_unknown in Ej. apply name_of_in in G. contradiction.
  Qed.

  (** ** After a clear, everything translated can be linked. *)
  Lemma number_names k (fs : list (nat * code)) : map f_name (number k fs) = map fst fs.
  Proof. revert k. induction fs as [|[n c] fs IH]; intros k; cbn; [reflexivity|]. f_equal. apply IH. Qed.
  Lemma tr_all_ok u (fs : list (nat * code)) : forall s, s_finalized s = false -> (s_builtins s = None \/ s_builtins s = Some (s_mid s)) -> NoDup (map f_name (s_module s) ++ map fst fs) ->
    exists s', calls s (tr_all u fs) = (s', map RId (seq (s_counter s) (length fs))) /\ s_finalized s' = false /\ s_aot s' = s_aot s /\ s_jd s' = s_jd s /\
      s_module s' = s_module s ++ number (s_counter s) fs /\
      s_names s' = rev (map (fun f => (f_id f, f_name f)) (number (s_counter s) fs)) ++ s_names s /\
      s_staged s' = (if s_aot s then [] else rev (map f_id (number (s_counter s) fs))) ++ s_staged s.
  Proof.
    induction fs as [|[n c] fs IH]; intros s F B ND.
    - exists s. cbn. rewrite app_nil_r. destruct (s_aot s); auto 10.
    - cbn [tr_all map fst snd calls do_call].
      assert (Fn : find_name n (s_module s) = None).
      { unfold find_name. destruct (find _ _) as [f|] eqn:E; [|reflexivity]. exfalso. apply find_some in E as [E1 E2]. apply Nat.eqb_eq in E2.
        cbn in ND. apply NoDup_remove_2 in ND. apply ND. apply in_or_app. left. rewrite <- E2. apply in_map. exact E1. }
      unfold translate. rewrite F. cbn [negb]. rewrite Fn. unfold build_function. rewrite Fn.
      assert (Y : forall A (o : option (nat * nat)) (y : A), match o with Some (_, _) => y | None => y end = y) by (intros; destruct o as [[? ?]|]; reflexivity).
      rewrite Y. cbn [s_builtins s_mid].
      assert (Z : match s_builtins s with Some m => negb (m =? s_mid s) | None => false end = false) by (destruct B as [->| ->]; [reflexivity|rewrite Nat.eqb_refl; reflexivity]).
      rewrite Z, andb_false_r.
      match goal with |- context [calls ?x (map _ fs)] => set (s1 := x) end.
      destruct (IH s1) as (s' & E & F' & A' & J' & M' & N' & S').
      + unfold s1. destruct u; cbn; exact F.
      + unfold s1. destruct u; cbn; auto.
      + assert (M1 : s_module s1 = s_module s ++ [mkF n (s_counter s) c]) by (unfold s1; destruct u; reflexivity).
        rewrite M1, map_app, <- app_assoc. exact ND.
      + assert (C1 : s_counter s1 = S (s_counter s) /\ s_aot s1 = s_aot s /\ s_jd s1 = s_jd s /\ s_module s1 = s_module s ++ [mkF n (s_counter s) c] /\
          s_names s1 = (s_counter s, n) :: s_names s /\ s_staged s1 = (if s_aot s then s_staged s else s_counter s :: s_staged s)) by (unfold s1; destruct u; auto 10).
        destruct C1 as (C1 & C2 & C3 & C4 & C5 & C6).
        exists s'. unfold tr_all in E. rewrite E, C1. split; [reflexivity|]. split; [exact F'|]. rewrite C2 in A'. rewrite C3 in J'. rewrite C1 in *. rewrite C4 in M'. rewrite C5 in N'. rewrite C2, C6 in S'.
        split; [exact A'|]. split; [exact J'|]. cbn [number map f_id f_name rev]. rewrite M', N', S', <- !app_assoc. cbn. split; [reflexivity|]. split; [reflexivity|].
        destruct (s_aot s); [reflexivity|]. rewrite <- app_assoc. reflexivity.
  Qed.
  Lemma find_uniq (l : list func) f : NoDup (map f_name l) -> In f l -> find_name (f_name f) l = Some f.
  Proof.
    unfold find_name. induction l as [|x l IH]; intros ND Hin; [destruct Hin|]. cbn in ND |- *. inversion ND as [|? ? N1 N2]; subst. destruct Hin as [->|Hin]; [rewrite Nat.eqb_refl; reflexivity|].
    destruct (Nat.eqb_spec (f_name x) (f_name f)) as [E|E]; [|apply IH; assumption]. exfalso. apply N1. rewrite E. apply in_map. exact Hin.
  Qed.
  Lemma name_uniq (l : list (nat * nat)) id n : NoDup (map fst l) -> In (id, n) l -> name_of id l = Some n.
  Proof.
    unfold name_of. induction l as [|[a b] l IH]; intros ND Hin; [destruct Hin|]. cbn in ND |- *. inversion ND as [|? ? N1 N2]; subst.
    destruct Hin as [E|Hin]; [injection E as -> ->; rewrite Nat.eqb_refl; reflexivity|].
    destruct (Nat.eqb_spec a id) as [E|E]; [|apply IH; assumption]. exfalso. apply N1. rewrite E. apply (in_map fst) in Hin. exact Hin.
  Qed.
  Lemma jit_linked s f : s_finalized s = true -> s_aot s = false -> s_staged s = [] -> NoDup (map fst (s_names s)) -> NoDup (map (fun p => f_name (snd p)) (s_jd s)) ->
    In (f_id f, f_name f) (s_names s) -> In f (map snd (s_jd s)) -> do_call s (jit_one (f_id f)) = (s, RAddr f).
  Proof.
    intros F A ST N1 N2 H1 H2. cbn [do_call jit_one]. unfold jit_function, finalize, commit. rewrite A, F. cbn [negb]. rewrite A, ST. cbn [orb negb].
    rewrite (name_uniq _ _ _ N1 H1). cbn [negb]. rewrite find_uniq; [reflexivity| |exact H2]. rewrite map_map. exact N2.
  Qed.
  Lemma jit_all_linked s ids : s_finalized s = true -> s_aot s = false -> s_staged s = [] -> NoDup (map fst (s_names s)) -> NoDup (map (fun p => f_name (snd p)) (s_jd s)) ->
    (forall f, In f ids -> In (f_id f, f_name f) (s_names s) /\ In f (map snd (s_jd s))) -> calls s (map (fun f => jit_one (f_id f)) ids) = (s, map RAddr ids).
  Proof.
    intros F A ST N1 N2 H. induction ids as [|f ids IH]; [reflexivity|]. cbn [map calls]. destruct (H f (or_introl eq_refl)) as [H1 H2]. rewrite (jit_linked _ _ F A ST N1 N2 H1 H2).
    rewrite IH; [reflexivity|]. intros g Hg. apply H. right. exact Hg.
  Qed.
  Lemma number_ids k (fs : list (nat * code)) : map f_id (number k fs) = seq k (length fs).
  Proof. revert k. induction fs as [|[n c] fs IH]; intros k; cbn; [reflexivity|]. f_equal. apply IH. Qed.
  Lemma NoDup_rev' {A} (l : list A) : NoDup l -> NoDup (rev l).
  Proof. induction l as [|x l IH]; intros ND; [constructor|]. inversion ND as [|? ? N1 N2]; subst. cbn. apply NoDup_app_intro; [apply IH; exact N2|constructor; [auto|constructor]|]. intros y Y [<-|[]]. rewrite <- in_rev in Y. contradiction. Qed.
  Theorem usable s u fs ids : NoDup (map fst fs) -> (forall f, In f ids -> In f (number (s_counter s) fs)) -> s_aot s = false ->
    exists s', calls s (Clear true true :: tr_all u fs ++ map (fun f => jit_one (f_id f)) ids) = (s', ROk :: map RId (seq (s_counter s) (length fs)) ++ map RAddr ids).
  Proof.
    intros ND HI A. cbn [calls do_call clear negb].
    match goal with |- context [calls ?x (tr_all u fs ++ _)] => set (s1 := x) end.
    destruct (tr_all_ok u fs s1 eq_refl (or_introl eq_refl) ND) as (s2 & E & F & A2 & J & M & N & ST). cbn in A2, J, M, N, ST. rewrite A in *. rewrite app_nil_r in N, ST.
    rewrite calls_app, E. change (s_counter s1) with (s_counter s). destruct ids as [|f ids]; [exists s2; cbn; rewrite app_nil_r; reflexivity|].
    assert (NE : fs <> []) by (intros ->; destruct (HI f (or_introl eq_refl))).
    (* the first request finalizes and links *)
    assert (X : exists s3, finalize s2 true true true = (s3, true) /\ s_module s3 = s_module s2 /\ s_staged s3 = s_staged s2 /\ s_aot s3 = false /\ s_names s3 = s_names s2 /\ s_jd s3 = [] /\ s_finalized s3 = true).
    { unfold finalize. rewrite F. cbn [negb andb]. eexists. split; [reflexivity|]. cbn. auto 10. }
    destruct X as (s3 & E3 & M3 & S3 & A3 & N3 & J3 & F3).
    assert (X : exists s4, commit s3 true true = (s4, true) /\ s_finalized s4 = true /\ s_aot s4 = false /\ s_staged s4 = [] /\ s_names s4 = s_names s2 /\ map snd (s_jd s4) = number (s_counter s) fs).
    { unfold commit. rewrite A3, S3, ST. cbn [orb negb].
      assert (NN : exists x y, rev (map f_id (number (s_counter s) fs)) = x :: y).
      { destruct (rev (map f_id (number (s_counter s) fs))) eqn:R; [|eauto]. exfalso. apply (f_equal (@length nat)) in R. rewrite rev_length, map_length in R. destruct fs as [|[? ?] ?]; [congruence|discriminate]. }
      destruct NN as (x & y & EQ). rewrite EQ.
      assert (CL : clash s3 = false). { unfold clash. rewrite J3. cbn. clear. induction (s_module s3); cbn; auto. }
      rewrite CL. eexists. split; [reflexivity|]. cbn. rewrite J3, app_nil_r, map_map. cbn. rewrite map_id, M3, M. auto. }
    destruct X as (s4 & E4 & F4 & A4 & S4 & N4 & J4).
    assert (D1 : NoDup (map fst (s_names s4))).
    { rewrite N4, N, map_rev, map_map. cbn. apply NoDup_rev'. rewrite number_ids. apply seq_NoDup. }
    assert (D2 : NoDup (map (fun p => f_name (snd p)) (s_jd s4))).
    { rewrite <- map_map, J4, number_names. exact ND. }
    assert (HH : forall g, In g (f :: ids) -> In (f_id g, f_name g) (s_names s4) /\ In g (map snd (s_jd s4))).
    { intros g Hg. specialize (HI _ Hg). rewrite J4, N4, N. split; [|exact HI]. rewrite <- in_rev. apply (in_map (fun f => (f_id f, f_name f))) in HI. exact HI. }
    exists s4. cbn [map calls].
    assert (FST : do_call s2 (jit_one (f_id f)) = (s4, RAddr f)).
    { pose proof (jit_linked s4 f F4 A4 S4 D1 D2 (proj1 (HH f (or_introl eq_refl))) (proj2 (HH f (or_introl eq_refl)))) as G.
      cbn [do_call jit_one] in G |- *. unfold jit_function in G |- *. rewrite A2, E3. cbn [negb]. rewrite E4. cbn [negb].
      rewrite A4 in G. unfold finalize in G. rewrite F4 in G. cbn [negb] in G. unfold commit in G. rewrite A4, S4 in G. cbn [orb negb] in G. exact G. }
    rewrite FST. rewrite (jit_all_linked s4 ids F4 A4 S4 D1 D2); [reflexivity|]. intros g Hg. apply HH. right. exact Hg.
  Qed.
  Theorem usable_aot s u fs : NoDup (map fst fs) -> s_aot s = true ->
    exists s', calls s (Clear true true :: tr_all u fs ++ [WriteObject true true true true true]) = (s', ROk :: map RId (seq (s_counter s) (length fs)) ++ [RObject (number (s_counter s) fs)]).
  Proof.
    intros ND A. cbn [calls do_call clear negb].
    match goal with |- context [calls ?x (tr_all u fs ++ _)] => set (s1 := x) end.
    destruct (tr_all_ok u fs s1 eq_refl (or_introl eq_refl) ND) as (s2 & E & F & A2 & J & M & N & ST). cbn in M.
    rewrite calls_app, E. change (s_counter s1) with (s_counter s). cbn [calls do_call]. unfold write_object, finalize. rewrite F. cbn [negb andb s_module]. rewrite M. eexists. reflexivity.
  Qed.
End Proof.
