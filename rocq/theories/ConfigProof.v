(** Proofs about the configuration's way into the compiler. *)
From Verif Require Import ConfigSpec.

Lemma nth_put {A} (l : list A) i j v d : (i < length l)%nat -> nth j (put l i v) d = if (j =? i)%nat then v else nth j l d.
Proof.
  revert i j. induction l as [|x l IH]; intros [|i] [|j] H; cbn in *; try lia; try reflexivity. rewrite <- IH by lia. reflexivity.
Qed.
Lemma put_length {A} (l : list A) i v : (i < length l)%nat -> length (put l i v) = length l.
Proof. intros H. unfold put. rewrite app_length, firstn_length_le by lia. cbn [length]. rewrite skipn_length. lia. Qed.
Lemma fill_spec ps : forall table seen, length seen = length table -> (forall id v, In (id, v) ps -> (id < length table)%nat) ->
  match fill ps table seen with
  | None => ~ (NoDup (map fst ps) /\ forall id, In id (map fst ps) -> nth id seen false = false)
  | Some (t', s') => NoDup (map fst ps) /\ (forall id, In id (map fst ps) -> nth id seen false = false) /\ length t' = length table /\ length s' = length seen /\
      (forall id v, In (id, v) ps -> nth id t' 0%Z = v) /\ (forall id, ~ In id (map fst ps) -> nth id t' 0%Z = nth id table 0%Z) /\
      (forall id, nth id s' false = true <-> nth id seen false = true \/ In id (map fst ps))
  end.
Proof.
  induction ps as [|[id v] ps IH]; intros table seen L B; cbn [fill map fst].
  - split; [constructor|]. split; [intros ? []|]. split; [reflexivity|]. split; [reflexivity|]. split; [intros ? ? []|]. split; [reflexivity|]. intros i. cbn. tauto.
  - assert (HI : (id < length table)%nat) by (eapply B; left; reflexivity). destruct (nth id seen false) eqn:S.
    + intros [_ H]. rewrite H in S by (left; reflexivity). discriminate.
    + specialize (IH (put table id v) (put seen id true)). rewrite !put_length in IH by lia. specialize (IH L). assert (B' : forall i w, In (i, w) ps -> (i < length table)%nat) by (intros; eapply B; right; eauto). specialize (IH B').
      destruct (fill ps _ _) as [[t' s']|].
      * destruct IH as (N & F & L1 & L2 & V & K & T).
        assert (NI : ~ In id (map fst ps)). { intros X. specialize (F _ X). rewrite nth_put, Nat.eqb_refl in F by lia. discriminate. }
        split; [constructor; assumption|]. split; [intros i [<-|X]; [exact S|]; specialize (F _ X); rewrite nth_put in F by lia; destruct (i =? id)%nat; [discriminate|exact F]|].
        split; [exact L1|]. split; [exact L2|]. split; [|split].
        -- intros i w [X|X]; [injection X as <- <-; rewrite K, nth_put, Nat.eqb_refl by (auto; lia); reflexivity|apply V; exact X].
        -- intros i X. rewrite K by (intros Y; apply X; right; exact Y). rewrite nth_put by lia. destruct (Nat.eqb_spec i id) as [->|]; [exfalso; apply X; left; reflexivity|reflexivity].
        -- intros i. rewrite T, nth_put by lia. cbn [In]. destruct (Nat.eqb_spec i id) as [->|N2]; [tauto|]. intuition congruence.
      * intros [N F]. apply IH. inversion N; subst. split; [assumption|]. intros i X. rewrite nth_put by lia. destruct (Nat.eqb_spec i id) as [->|]; [contradiction|]. apply F. right. exact X.
Qed.
Lemma existsb_negb (l : list bool) : existsb negb l = false <-> forall i, (i < length l)%nat -> nth i l false = true.
Proof.
  induction l as [|b l IH]; cbn [existsb length]; [split; [intros _ i H; lia|reflexivity]|]. rewrite orb_false_iff, IH. split.
  - intros [B H] [|i] L; cbn; [destruct b; [reflexivity|discriminate]|apply H; lia].
  - intros H. split; [specialize (H 0%nat ltac:(lia)); cbn in H; subst; reflexivity|]. intros i L. apply (H (S i)). lia.
Qed.
Lemma nth_repeat_any {A} (x : A) n i : nth i (repeat x n) x = x.
Proof. revert i. induction n as [|n IH]; intros [|i]; cbn; auto. Qed.
Lemma nth_error_of {A} (l : list A) i d : (i < length l)%nat -> nth_error l i = Some (nth i l d).
Proof. intros H. apply nth_error_nth'. exact H. Qed.
Lemma nth_error_ext {A} (l l' : list A) : (forall i, nth_error l i = nth_error l' i) -> l = l'.
Proof.
  revert l'. induction l as [|x l IH]; intros [|y l'] H; [reflexivity|specialize (H 0%nat); discriminate|specialize (H 0%nat); discriminate|].
  f_equal; [specialize (H 0%nat); cbn in H; congruence|]. apply IH. intros i. apply (H (S i)).
Qed.
Lemma from_pairs ps t : (forall id v, In (id, v) ps -> (id < 256)%nat) -> gas_from_pairs ps = Some t <-> describes ps t.
Proof.
  intros B. unfold gas_from_pairs, GAS_PARAM_COUNT, describes. pose proof (fill_spec ps (repeat 0%Z 256) (repeat false 256)) as F. rewrite !repeat_length in F. specialize (F eq_refl B).
  destruct (Nat.eqb_spec (length ps) 256) as [E|E]; cbn [negb]; [|split; [discriminate|intros (X & _); contradiction]].
  destruct (fill ps _ _) as [[t' s']|].
  - destruct F as (N & _ & L1 & L2 & V & _ & T). assert (ALL : existsb negb s' = false).
    { apply existsb_negb. rewrite L2. intros i Hi. apply T. right.
      assert (I : incl (seq 0 256) (map fst ps)).
      { apply NoDup_length_incl; [exact N|rewrite map_length, seq_length; lia|]. intros x X. apply in_map_iff in X as ([a b] & <- & X). apply in_seq. specialize (B _ _ X). cbn. lia. }
      apply I. apply in_seq. lia. }
    rewrite ALL. split.
    + intros H. injection H as <-. repeat (split; [assumption|]). intros id v X. rewrite (nth_error_of _ _ 0%Z) by (rewrite L1; eauto). f_equal. apply V. exact X.
    + intros (_ & _ & L & X). f_equal. apply nth_error_ext. intros i. destruct (Nat.lt_ge_cases i 256) as [Hi|Hi].
      * assert (I : In i (map fst ps)).
        { assert (Z : nth i s' false = true) by (apply existsb_negb; [exact ALL|lia]). apply T in Z as [Z|Z]; [|exact Z]. rewrite nth_repeat_any in Z. discriminate. }
        apply in_map_iff in I as ([a b] & <- & I). cbn in *. rewrite (X _ _ I), (nth_error_of _ _ 0%Z) by lia. f_equal. apply V. exact I.
      * rewrite (proj2 (nth_error_None t' i)), (proj2 (nth_error_None t i)) by lia. reflexivity.
  - split; [discriminate|]. intros (_ & N & _). exfalso. apply F. split; [exact N|]. intros id _. apply nth_repeat_any.
Qed.
Lemma to_pairs_ok t : gas_table_ok t -> describes (gas_to_pairs t) t.
Proof.
  intros L. unfold describes, gas_to_pairs, GAS_PARAM_COUNT. split; [rewrite map_length, seq_length; reflexivity|]. split; [rewrite map_map; cbn [fst]; rewrite map_id; apply seq_NoDup|]. split; [exact L|].
  intros id v H. apply in_map_iff in H as (i & E & H). injection E as <- <-. apply in_seq in H. unfold gas_get. apply nth_error_of. unfold gas_table_ok in L. lia.
Qed.
Lemma gas_round t : gas_table_ok t -> gas_from_pairs (gas_to_pairs t) = Some t.
Proof.
  intros L. apply from_pairs; [|apply to_pairs_ok; exact L]. intros id v H. unfold gas_to_pairs, GAS_PARAM_COUNT in H. apply in_map_iff in H as (i & E & H). injection E as <- <-. apply in_seq in H. lia.
Qed.
Lemma opt_round o : opt_from_u8 (opt_to_u8 o) = Some o. Proof. destruct o; reflexivity. Qed.

Section Proof.
  Context {path str spec rest : Type}.
  Variable lossy : path -> path.
  Variable spec_to_u8 : spec -> Z.
  Variable spec_from_u8 : Z -> option spec.
  Notation config := (@config path rest).
  Notation job := (@job str spec).
  Notation options := (@options path str spec).
  Notation slot := (@slot path str spec).
  Variable default : config.
  Variable build_debug build_frame : bool.
  Notation compile_with_state := (compile_with_state build_debug build_frame).
  Implicit Types (c : config) (j : job).

  (** What stays the same in a thread's compiler from job to job. *)
  Record fixed c (t : target) (kd : kind) (k : options) : Prop := {
    fx_aot : o_aot k = is_aot_backend t; fx_debug : o_debug k = c_debug c; fx_single : o_single k = c_single c;
    fx_dedup : o_dedup k = negb (c_no_dedup c); fx_dse : o_dse k = negb (c_no_dse c); fx_gas : o_gas k = c_gas c;
    fx_dump : kd = KAot \/ c_dump c = None -> o_dump k = None /\ o_info k = false /\ o_frame k = build_frame
  }.
  Definition slot_ok c t kd (s : slot) : Prop := match s with None => True | Some (k, _) => fixed c t kd k end.
  Lemma create_fixed c t kd : fixed c t kd (create_compiler build_debug build_frame c (is_aot_backend t)).
  Proof. unfold create_compiler. destruct (c_gas c) eqn:G; constructor; cbn; auto. Qed.
  Lemma compile_ok c t s j ok1 ok2 s' r : slot_ok c t (j_kind j) s -> compile_with_state c t s j ok1 ok2 = (s', r) ->
    slot_ok c t (j_kind j) s' /\ match r with Some m => as_configured build_frame (fun p => p) c t j m | None => ok1 = false end.
  Proof.
    intros S E. unfold ConfigModel.compile_with_state in E.
    assert (X : exists o, (match s with Some st => Some st | None => if ok1 then Some (create_compiler build_debug build_frame c (is_aot_backend t), 0%nat) else None end) = o /\
      match o with None => ok1 = false | Some (k, _) => fixed c t (j_kind j) k end).
    { eexists. split; [reflexivity|]. destruct s as [[k n]|]; [exact S|]. destruct ok1; [apply create_fixed|reflexivity]. }
    destruct X as (o & EO & X). rewrite EO in E. destruct o as [[k n]|]; [|injection E as <- <-; split; [exact Logic.I|exact X]].
    set (k1 := match j_kind j with KJit => _ | KAot => _ end) in E. injection E as <- <-. destruct X as [A1 A2 A3 A4 A5 A6 A7].
    assert (F : fixed c t (j_kind j) (set_opt_level k1 (j_opt j))).
    { unfold k1. destruct (j_kind j) eqn:K; [destruct (c_dump c) as [b|] eqn:D|]; constructor; cbn; auto. intros [X|X]; congruence. }
    split; [destruct (_ && _); [destruct ok2; [apply create_fixed|exact F]|exact F]|].
    assert (W : o_dump k1 = wants_dump (fun p => p) c j /\ (o_info k1 = true <-> wants_dump (fun p => p) c j <> None) /\ (o_frame k1 = true <-> build_frame = true \/ wants_dump (fun p => p) c j <> None)).
    { unfold k1, wants_dump. destruct (j_kind j) eqn:K; [destruct (c_dump c) as [b|] eqn:D|].
      - cbn. split; [reflexivity|]. split; [split; [discriminate|reflexivity]|]. split; [intros _; right; discriminate|reflexivity].
      - destruct (A7 (or_intror eq_refl)) as (-> & -> & ->). cbn. split; [reflexivity|]. split; [split; [discriminate|congruence]|]. intuition congruence.
      - destruct (A7 (or_introl eq_refl)) as (-> & -> & ->). cbn. split; [reflexivity|]. split; [split; [discriminate|congruence]|]. intuition congruence. }
    destruct W as (W1 & W2 & W3). destruct F as [B1 B2 B3 B4 B5 B6 _]. constructor; cbn in *; try reflexivity; try assumption.
    - rewrite B4. destruct (c_no_dedup c); intuition discriminate.
    - rewrite B5. destruct (c_no_dse c); intuition discriminate.
    - rewrite B1. destruct t; cbn; intuition discriminate.
  Qed.
  Lemma thread_ok c t kd l : forall s, slot_ok c t kd s -> Forall (fun e => j_kind (fst e) = kd) l -> all_configured build_frame (fun p => p) c (fun _ => t) l (thread build_debug build_frame c t s l).
  Proof.
    induction l as [|[j [ok1 ok2]] l IH]; intros s S K; cbn [thread]; [constructor|]. pose proof (Forall_inv K) as K1; pose proof (Forall_inv_tail K) as K2. cbn in K1. subst kd. destruct (compile_with_state c t s j ok1 ok2) as [s' r] eqn:E.
    destruct (compile_ok _ _ _ _ _ _ _ _ S E) as [S' X]. constructor; [exact X|apply IH; assumption].
  Qed.
  Lemma worker_ok c l : forall sj sa, slot_ok c TJit KJit sj -> slot_ok c TAot KAot sa ->
    all_configured build_frame (fun p => p) c (fun j => match j_kind j with KJit => TJit | KAot => TAot end) l (worker build_debug build_frame c sj sa l).
  Proof.
    induction l as [|[j [ok1 ok2]] l IH]; intros sj sa SJ SA; cbn [worker]; [constructor|]. destruct (j_kind j) eqn:K.
    - destruct (compile_with_state c TJit sj j ok1 ok2) as [s' r] eqn:E. rewrite <- K in SJ. destruct (compile_ok _ _ _ _ _ _ _ _ SJ E) as [S' X]. rewrite K in S'. constructor; [cbn; rewrite K; exact X|apply IH; assumption].
    - destruct (compile_with_state c TAot sa j ok1 ok2) as [s' r] eqn:E. rewrite <- K in SA. destruct (compile_ok _ _ _ _ _ _ _ _ SA E) as [S' X]. rewrite K in S'. constructor; [cbn; rewrite K; exact X|apply IH; assumption].
  Qed.
  (** The helper's configuration. *)
  Lemma init_round c : (forall t, c_gas c = Some t -> gas_table_ok t) ->
    config_from_init default (helper_init lossy c) =
      Some (mkConfig (option_map lossy (c_dump c)) (c_debug c) (c_single c) (c_no_dedup c) (c_no_dse c) (c_gas c) (c_workers c) (c_recycle c) (c_jit_opt default) (c_aot_opt default) (c_rest default)).
  Proof.
    intros G. unfold config_from_init, helper_init. cbn [i_gas i_dump i_debug i_single i_no_dedup i_no_dse i_workers i_recycle]. destruct (c_gas c) as [t|]; cbn [option_map]; [|reflexivity]. rewrite gas_round by auto. reflexivity.
  Qed.
  Lemma request_round j : spec_from_u8 (spec_to_u8 (j_spec j)) = Some (j_spec j) -> j_kind j = KJit -> read_request spec_from_u8 (write_job spec_to_u8 j) = Some j.
  Proof. intros S K. unfold read_request, write_job. cbn. rewrite S, opt_round. destruct j; cbn in *. subst. reflexivity. Qed.
  Lemma read_all_round (l : list (job * (bool * bool))) : (forall sp, spec_from_u8 (spec_to_u8 sp) = Some sp) -> Forall (fun e => j_kind (fst e) = KJit) l ->
    read_all spec_from_u8 (map (fun e => (write_job spec_to_u8 (fst e), snd e)) l) = l.
  Proof.
    intros S K. induction K as [|[j ok] l K1 K2 IH]; cbn [map read_all]; [reflexivity|]. cbn [fst] in K1 |- *. rewrite request_round by auto. rewrite IH. reflexivity.
  Qed.
  Lemma helper_ok c (l : list (job * (bool * bool))) : (forall t, c_gas c = Some t -> gas_table_ok t) -> (forall sp, spec_from_u8 (spec_to_u8 sp) = Some sp) -> Forall (fun e => j_kind (fst e) = KJit) l ->
    exists r, helper spec_from_u8 default build_debug build_frame (helper_init lossy c) (map (fun e => (write_job spec_to_u8 (fst e), snd e)) l) = Some r /\
      all_configured build_frame lossy c (fun _ => TJitObject) l r.
  Proof.
    intros G S K. unfold helper. rewrite init_round by exact G. eexists. split; [reflexivity|]. rewrite read_all_round by assumption.
    pose proof (thread_ok (mkConfig (option_map lossy (c_dump c)) (c_debug c) (c_single c) (c_no_dedup c) (c_no_dse c) (c_gas c) (c_workers c) (c_recycle c) (c_jit_opt default) (c_aot_opt default) (c_rest default))
      TJitObject KJit l None Logic.I K) as T.
    unfold all_configured in *. induction T as [|e m l r H T IH]; constructor; [|apply IH; exact (Forall_inv_tail K)].
    destruct m as [m|]; [|exact H]. destruct H as [H1 H2 H3 H4 H5 H6 H7 H8 H9 H10 H11 H12 H13]. unfold wants_dump in H11, H12, H13. cbn in *.
    pose proof (Forall_inv K) as K1. constructor; auto; unfold wants_dump; rewrite K1 in *; destruct (c_dump c); cbn in *; auto.
  Qed.
End Proof.

(** ** Recycling. *)
Section Recycle.
  Context {path str spec rest : Type}.
  Variables (build_debug build_frame : bool) (c : @config path rest) (t : target).
  Notation job := (@job str spec).
  Notation held := (held build_debug build_frame c t).
  Notation fresh_one := (create_compiler build_debug build_frame c (is_aot_backend t)).
  Implicit Types (s : @slot path str spec) (l : list (job * (bool * bool))) (j : job).
  Definition young s : Prop := match s with Some (_, n) => (0 < c_recycle c -> n < c_recycle c)%nat | None => True end.
  Lemma held_snoc s l e : held s (l ++ [e]) = fst (compile_with_state build_debug build_frame c t (held s l) (fst e) (fst (snd e)) (snd (snd e))).
  Proof. unfold ConfigSpec.held. rewrite fold_left_app. reflexivity. Qed.
  Lemma held_app s l1 l2 : held s (l1 ++ l2) = held (held s l1) l2.
  Proof. apply fold_left_app. Qed.
  (** One compilation by a compiler that has done [n]. *)
  Lemma step_some k n j ok1 ok2 : exists k',
    fst (compile_with_state build_debug build_frame c t (Some (k, n)) j ok1 ok2) =
      (if (0 <? c_recycle c)%nat && (c_recycle c <=? S n)%nat then (if ok2 then Some (fresh_one, 0%nat) else Some (k', 0%nat)) else Some (k', S n)).
  Proof. unfold compile_with_state. eexists. cbv zeta. cbn [fst]. destruct (_ && _); [destruct ok2|]; reflexivity. Qed.
  Lemma step_none j ok1 ok2 : fst (compile_with_state build_debug build_frame c t None j ok1 ok2) =
    if ok1 then fst (compile_with_state build_debug build_frame c t (Some (fresh_one, 0%nat)) j ok1 ok2) else None.
  Proof. destruct ok1; reflexivity. Qed.
  Lemma step_young s j ok1 ok2 : young s -> young (fst (compile_with_state build_debug build_frame c t s j ok1 ok2)).
  Proof.
    intros Y. assert (X : forall k n, young (Some (k, n)) -> young (fst (compile_with_state build_debug build_frame c t (Some (k, n)) j ok1 ok2))).
    { intros k n Yn. destruct (step_some k n j ok1 ok2) as (k' & ->). destruct (Nat.ltb_spec 0 (c_recycle c)); destruct (Nat.leb_spec (c_recycle c) (S n)); cbn; try destruct ok2; cbn in *; lia. }
    destruct s as [[k n]|]; [apply X, Y|]. rewrite step_none. destruct ok1; [|exact Logic.I]. apply X. cbn. lia.
  Qed.
  Lemma held_young s l : young s -> young (held s l).
  Proof. revert s. induction l as [|e l IH]; intros s Y; [exact Y|]. cbn. apply IH, step_young, Y. Qed.
  Lemma recycle_count l : Forall (fun e => snd e = (true, true)) l -> l <> [] -> (0 < c_recycle c)%nat ->
    exists k, held None l = Some (k, length l mod c_recycle c)%nat /\ (length l mod c_recycle c = 0%nat -> k = fresh_one).
  Proof.
    intros F NE R. assert (X : forall k n l, Forall (fun e => snd e = (true, true)) l -> (n < c_recycle c)%nat -> (n = 0%nat -> k = fresh_one) ->
      exists k', held (Some (k, n)) l = Some (k', (n + length l) mod c_recycle c)%nat /\ ((n + length l) mod c_recycle c = 0%nat -> k' = fresh_one)).
    { clear l F NE. intros k n l F N K. revert k n N K. induction F as [|[j ok] l E F IH]; intros k n N K.
      - exists k. cbn. rewrite Nat.add_0_r, Nat.mod_small by exact N. auto.
      - cbn in E. subst ok. cbn [ConfigSpec.held fold_left fst snd]. destruct (step_some k n j true true) as (k' & E'). rewrite E'. clear E'.
        replace (n + length ((j, (true, true)) :: l))%nat with (S n + length l)%nat by (cbn; lia).
        destruct (Nat.ltb_spec 0 (c_recycle c)); [|lia]. cbn [andb]. destruct (Nat.leb_spec (c_recycle c) (S n)).
        + assert (Sn : S n = c_recycle c) by lia. assert (M : ((S n + length l) mod c_recycle c = (0 + length l) mod c_recycle c)%nat). { rewrite Sn. replace (c_recycle c + length l)%nat with (length l + 1 * c_recycle c)%nat by lia. rewrite Nat.mod_add by lia. reflexivity. }
          rewrite M.
          exact (IH fresh_one 0%nat R (fun _ => eq_refl)).
        + apply IH; [lia|discriminate]. }
    destruct l as [|[j ok] l]; [exists fresh_one|].
    - congruence.
    - pose proof (Forall_inv F) as E. cbn in E. subst ok.
      change (held None ((j, (true, true)) :: l)) with (held (Some (fresh_one, 0%nat)) ((j, (true, true)) :: l)).
      exact (X fresh_one 0%nat _ F R (fun _ => eq_refl)).
  Qed.
  Lemma recycle_window s l : young s -> s <> None -> Forall (fun e => snd (snd e) = true) l -> (0 < c_recycle c <= length l)%nat ->
    exists l1 e l2, l = l1 ++ e :: l2 /\ held s (l1 ++ [e]) = Some (fresh_one, 0%nat).
  Proof.
    destruct s as [[k n]|]; [intros Y _ F|congruence]. cbn in Y. intros [R LE]. specialize (Y R).
    assert (X : (c_recycle c <= n + length l)%nat) by lia. clear LE. revert k n Y X. induction F as [|[j [ok1 ok2]] l E F IH]; intros k n Y X; [cbn in X; lia|].
    cbn in E. subst ok2. destruct (step_some k n j ok1 true) as (k' & E'). destruct (Nat.ltb_spec 0 (c_recycle c)); [|lia]. cbn [andb] in E'.
    destruct (Nat.leb_spec (c_recycle c) (S n)).
    - exists [], (j, (ok1, true)), l. split; [reflexivity|]. exact E'.
    - destruct (IH k' (S n)) as (l1 & e & l2 & -> & Hh); [lia|cbn in X; lia|]. exists ((j, (ok1, true)) :: l1), e, l2. split; [reflexivity|].
      cbn [app ConfigSpec.held fold_left fst snd]. rewrite E'. exact Hh.
  Qed.
  Lemma recycle_never l : c_recycle c = 0%nat -> Forall (fun e => fst (snd e) = true) l -> l <> [] -> exists k, held None l = Some (k, length l).
  Proof.
    intros R F. assert (X : forall k n l, exists k', held (Some (k, n)) l = Some (k', n + length l)%nat).
    { clear l F. intros k n l. revert k n. induction l as [|[j [ok1 ok2]] l IH]; intros k n; [exists k; cbn; rewrite Nat.add_0_r; reflexivity|].
      cbn [ConfigSpec.held fold_left fst snd]. destruct (step_some k n j ok1 ok2) as (k' & ->). rewrite R. cbn [Nat.ltb Nat.leb andb]. destruct (IH k' (S n)) as (k2 & E). exists k2. cbn [length]. rewrite <- plus_n_Sm. exact E. }
    destruct l as [|[j [ok1 ok2]] l]; [congruence|]. intros _. pose proof (Forall_inv F) as E. cbn in E. subst ok1.
    change (held None ((j, (true, ok2)) :: l)) with (held (Some (fresh_one, 0%nat)) ((j, (true, ok2)) :: l)). apply (X fresh_one 0%nat).
  Qed.
End Recycle.
