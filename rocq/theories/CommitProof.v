(** Jump resolution and its commitment into the flags. *)
From Verif Require Import BlockModel FlowSpec CfgProof ArithSpec BlockProof LocalProof.
From Coq Require Import ZifyBool.
Open Scope Z_scope.

Section Commit.
  Context {Y : Type} (prog : list idata) (env : aenv)
          (sem : nat -> list Z -> Y -> option (list Z * Y)) (y0 : Y).
  Notation const := (a_const env).
  Notation dest := (a_dest env).
  Notation step := (evm_step prog const dest sem).
  Notation R := (reach prog const dest sem y0).
  Hypothesis PO : prog_ok prog const dest.
  Hypothesis SO : sem_ok prog const sem (a_codelen env).
  Notation pre := (pre prog const dest sem y0).
  Notation cfg_ok := (cfg_ok prog const dest sem y0).
  Notation snap_ok := (snap_ok prog env sem).
  Let DEST := po_dest _ _ _ PO.

  Definition taken (d : idata) (st1 : list Z) : Prop := d_op d = OP_JUMPI -> exists c st2, st1 = c :: st2 /\ c <> 0.
  Definition cond_ok (r : jres) (d : idata) (st : list Z) : Prop :=
    d_op d = OP_JUMPI -> forall t c st2, st = t :: c :: st2 ->
    (j_cond r = CAlwaysTrue -> c <> 0) /\ (j_cond r = CAlwaysFalse -> c = 0).
  (** [bot]: an empty snapshot is taken to mean that the jump is never executed. *)
  Definition tgt_ok (bot : bool) (r : jres) (d : idata) (st : list Z) : Prop :=
    forall t st1, st = t :: st1 -> taken d st1 ->
    match j_target r with
    | JResolved [x] => dest t = Some x
    | JResolved ts => forall j, dest t = Some j -> In j ts
    | JInvalid => dest t = None
    | JBottom => bot = false
    | JTop => True
    end.
  Definition shape (i : nat) (d : idata) (r : jres) : Prop :=
    (j_cond r = CAlwaysFalse -> j_target r = JResolved [S i]) /\
    (forall ts, j_target r = JResolved ts -> ts = [S i] \/ ts <> [] /\ forall t, In t ts -> is_dest prog t) /\
    (cond_known (j_cond r) = true -> d_op d = OP_JUMPI).

  Lemma set_targets_spec l ts : set_targets env l = Some ts ->
    length ts = length l /\ (forall v, In v l -> exists t, dest v = Some t /\ In t ts) /\ (forall t, In t ts -> exists v, In v l /\ dest v = Some t).
  Proof.
    revert ts. induction l as [|v l IH]; intros ts H; cbn in H.
    - injection H as <-. split; [reflexivity|]. split; [intros v []|intros t []].
    - destruct (dest v) as [t|] eqn:Ev; [|discriminate]. destruct (set_targets env l) as [ts'|] eqn:E; [|discriminate].
      injection H as <-. destruct (IH _ eq_refl) as (L & H1 & H2). split; [cbn; congruence|]. split.
      + intros w [<- |Hw]; [exists t; split; [exact Ev|left; reflexivity]|].
        destruct (H1 w Hw) as (x & Hx & I). exists x. split; [exact Hx|right; exact I].
      + intros x [<- |Hx]; [exists v; split; [left; reflexivity|exact Ev]|].
        destruct (H2 x Hx) as (w & Hw & I). exists w. split; [right; exact Hw|exact I].
  Qed.

  Lemma operand_ok a t : gamma a t ->
    match resolve_jump_operand env a with
    | JResolved [x] => dest t = Some x
    | JResolved ts => forall j, dest t = Some j -> In j ts
    | JInvalid => dest t = None
    | JBottom => False
    | JTop => True
    end.
  Proof.
    destruct a as [v|l|]; cbn; intros G; [|destruct (set_targets env l) as [ts|] eqn:E; [|exact Logic.I]|exact Logic.I].
    - subst v. destruct (dest t); auto.
    - destruct (set_targets_spec _ _ E) as (L & H1 & H2). destruct (H1 t G) as (x & Hx & Ix).
      destruct ts as [|a [|b ts]]; [destruct Ix| |].
      + destruct Ix as [<- |[]]. exact Hx.
      + intros j Hj. assert (j = x) by congruence. subst j. exact Ix.
  Qed.
  Lemma operand_shape a ts : resolve_jump_operand env a = JResolved ts -> ts <> [] /\ forall t, In t ts -> is_dest prog t.
  Proof.
    assert (D : forall v t, dest v = Some t -> is_dest prog t) by (intros v t H; exact (DEST v t H)).
    destruct a as [v|l|]; cbn; intros H; [| |discriminate].
    - destruct (dest v) as [t|] eqn:E; [|discriminate]. injection H as <-. split; [discriminate|].
      intros t' [<- |[]]. eauto.
    - destruct (set_targets env l) as [us|] eqn:E; [|discriminate]. destruct (set_targets_spec _ _ E) as (L & H1 & H2).
      destruct us as [|u us]; [discriminate|]. injection H as <-. split; [discriminate|].
      intros t Ht. destruct (H2 t Ht) as (w & _ & Hw). eauto.
  Qed.
  Lemma condition_ok a c : gamma a c ->
    (resolve_jump_condition a = CAlwaysTrue -> c <> 0) /\ (resolve_jump_condition a = CAlwaysFalse -> c = 0).
  Proof.
    unfold resolve_jump_condition. intros G.
    destruct (abs_const_set a) as [l|] eqn:E; [|split; discriminate].
    assert (I : In c l) by (destruct a; cbn in *; try discriminate; injection E as <-; [left; auto|exact G]).
    destruct (existsb (Z.eqb 0) l) eqn:E0; destruct (existsb (fun v => negb (v =? 0)) l) eqn:E1; split; try discriminate; intros _.
    - destruct (Z.eq_dec c 0); [assumption|exfalso].
      assert (X : existsb (fun v => negb (v =? 0)) l = true); [|congruence].
      apply existsb_exists. exists c. split; [exact I|]. lia.
    - intros ->. assert (X : existsb (Z.eqb 0) l = true); [|congruence]. apply existsb_exists. exists 0. split; [exact I|reflexivity].
  Qed.

  Lemma last_rev (l : list aval) : last (map Some l) None = hd_error (rev l).
  Proof.
    destruct (rev l) as [|a r] eqn:E.
    - apply (f_equal (@rev _)) in E. rewrite rev_involutive in E. subst l. reflexivity.
    - apply (f_equal (@rev _)) in E. rewrite rev_involutive in E. subst l. cbn. rewrite map_app. cbn. apply last_last.
  Qed.

  (** A jump operand snapshot of full length that describes the stack. *)
  Definition jump_snap (sn : snaps) (i : nat) (d : idata) (st : list Z) : Prop :=
    prel (rev (sn_in sn i)) st /\
    (Z.to_nat (fst (d_io d)) <= length st -> length (sn_in sn i) = Z.to_nat (fst (d_io d)))%nat.

  Lemma resolve_ok insts sn i d st : nth_error insts i = Some d -> is_jump d = true ->
    d_io d = (if d_op d =? OP_JUMP then (1, 0) else (2, 0)) -> jump_snap sn i d st ->
    cond_ok (resolve_jump env insts sn i) d st /\ tgt_ok true (resolve_jump env insts sn i) d st.
  Proof.
    intros Hn Hj Hio [P L]. unfold resolve_jump. rewrite Hn.
    unfold is_jump in Hj.
    destruct (d_op d =? OP_JUMPI) eqn:EI.
    - assert (Hio2 : d_io d = (2, 0)). { rewrite Hio. unfold OP_JUMP, OP_JUMPI in *. destruct (d_op d =? 0x56) eqn:E; [lia|reflexivity]. }
      rewrite Hio2 in L. cbn [fst] in L. change (Z.to_nat 2) with 2%nat in L.
      destruct (sn_in sn i) as [|a0 [|a1 [|a2 sl]]] eqn:Es; cbn [length] in L.
      + cbn. split; [intros _ t c s ->; cbn in L; exfalso; lia|].
        intros t st1 -> T. destruct (T ltac:(lia)) as (c & s & -> & _). cbn in L. exfalso. lia.
      + assert (X : forall t c s, st = t :: c :: s -> False) by (intros t c s ->; cbn in L; lia).
        split; [intros _ t c s E; exfalso; eauto|].
        intros t st1 E T. destruct (T ltac:(lia)) as (c & s & -> & _). exfalso; eauto.
      + cbn [rev app] in P. cbn [map last].
        assert (C : cond_ok (mkJ JTop (resolve_jump_condition a0)) d st).
        { intros _ t c s ->. cbn [j_cond]. apply condition_ok. apply (P 1%nat a0 c); reflexivity. }
        assert (TT : forall t st1, st = t :: st1 -> gamma a1 t) by (intros t st1 ->; apply (P 0%nat a1 t); reflexivity).
        destruct (resolve_jump_condition a0) eqn:Ec.
        * split; [exact C|]. intros t st1 E T. cbn [j_target]. pose proof (operand_ok a1 t (TT _ _ E)) as O.
          destruct (resolve_jump_operand env a1) as [|[|? [|? ?]]| |]; auto. contradiction.
        * split; [exact C|]. intros t st1 E T. cbn [j_target]. pose proof (operand_ok a1 t (TT _ _ E)) as O.
          destruct (resolve_jump_operand env a1) as [|[|? [|? ?]]| |]; auto. contradiction.
        * split; [exact C|]. intros t st1 -> T. cbn [j_target]. destruct (T ltac:(lia)) as (c & s & -> & Hc).
          destruct (C ltac:(lia) t c s eq_refl) as [_ X]. exfalso. apply Hc, X. reflexivity.
      + assert (X : forall t c s, st = t :: c :: s -> False) by (intros t c s ->; cbn in L; lia).
        split; [intros _ t c s E; exfalso; eauto|].
        intros t st1 E T. destruct (T ltac:(lia)) as (c & s & -> & _). exfalso; eauto.
    - assert (Hio1 : d_io d = (1, 0)). { rewrite Hio. destruct (d_op d =? OP_JUMP); [reflexivity|discriminate]. }
      rewrite Hio1 in L. cbn [fst] in L. change (Z.to_nat 1) with 1%nat in L.
      rewrite last_rev. destruct (rev (sn_in sn i)) as [|a sl] eqn:Er.
      + split; [intros X; lia|]. intros t st1 -> _. cbn.
        assert (length (rev (sn_in sn i)) = 1%nat) by (rewrite rev_length; apply L; cbn; lia). rewrite Er in *. discriminate.
      + cbn [hd_error]. split; [intros X; lia|]. intros t st1 -> _. cbn [j_target].
        pose proof (operand_ok a t (P 0%nat a t eq_refl eq_refl)) as O.
        destruct (resolve_jump_operand env a) as [|[|? [|? ?]]| |]; auto. contradiction.
  Qed.
  Lemma resolve_shape insts sn i d : nth_error insts i = Some d -> shape i d (resolve_jump env insts sn i).
  Proof.
    intros Hn. unfold resolve_jump, shape. rewrite Hn.
    destruct (d_op d =? OP_JUMPI) eqn:EI.
    - destruct (match sn_in sn i with [] => CUnknown | a :: _ => resolve_jump_condition a end) eqn:Ec.
      + destruct (last (map Some (sn_in sn i)) None) as [a|]; cbn.
        * split; [discriminate|]. split; [intros ts E; right; eapply operand_shape; eauto|discriminate].
        * split; [discriminate|]. split; [intros ts E; discriminate|discriminate].
      + destruct (last (map Some (sn_in sn i)) None) as [a|]; cbn.
        * split; [discriminate|]. split; [intros ts E; right; eapply operand_shape; eauto|intros _; lia].
        * split; [discriminate|]. split; [intros ts E; discriminate|discriminate].
      + cbn. split; [reflexivity|]. split; [intros ts E; left; congruence|intros _; lia].
    - destruct (last (map Some (sn_in sn i)) None) as [a|]; cbn.
      + split; [discriminate|]. split; [intros ts E; right; eapply operand_shape; eauto|discriminate].
      + split; [discriminate|]. split; [intros ts E; discriminate|discriminate].
  Qed.

  (** ** Committing. *)
  Definition same_io (d d' : idata) : Prop := same d d' /\ d_reach d' = d_reach d /\ is_dead d' = is_dead d.

  Lemma commit_one_same bot i r d m d' m' : commit_one bot i r d m = (d', m') ->
    same d d' /\ is_dead d' = is_dead d /\ (f_constcond (d_flags d) = true -> f_constcond (d_flags d') = true).
  Proof.
    unfold commit_one. intros H.
    assert (E : d' = d \/ (exists a b c cc t, d' = set_target (commit_flags d a b c (f_constcond (d_flags d) || cc)) t)
                       \/ exists a b c cc, d' = commit_flags d a b c (f_constcond (d_flags d) || cc)).
    { destruct (f_static (d_flags d) && negb (cond_known (j_cond r))); [left; congruence|]. right.
      destruct (j_target r) as [|[|x [|y ts]]| |]; [destruct bot| | | | |]; injection H as <- _;
        solve [left; do 5 eexists; reflexivity|right; do 4 eexists; reflexivity]. }
    destruct E as [-> |[(a & b & c & cc & t & ->)|(a & b & c & cc & ->)]]; cbn; (split; [repeat split|split; [reflexivity|]]); auto;
      intros ->; reflexivity.
  Qed.

  Lemma commit_step_insts bot p i r d : nth_error (b_insts p) i = Some d ->
    exists d' m', commit_one bot i r d (b_multi p i) = (d', m') /\
      commit_step bot p (i, r) = with_multi (with_insts p (upd_nth i (fun _ => d') (b_insts p))) (upd (b_multi p) i m') /\
      nth_error (b_insts (commit_step bot p (i, r))) i = Some d' /\
      (forall k, k <> i -> nth_error (b_insts (commit_step bot p (i, r))) k = nth_error (b_insts p) k /\
                           b_multi (commit_step bot p (i, r)) k = b_multi p k) /\
      b_multi (commit_step bot p (i, r)) i = m' /\ length (b_insts (commit_step bot p (i, r))) = length (b_insts p).
  Proof.
    intros Hn. unfold commit_step. rewrite Hn. destruct (commit_one bot i r d (b_multi p i)) as [d' m'] eqn:E.
    exists d', m'. split; [reflexivity|]. split; [reflexivity|]. cbn.
    split; [rewrite nth_upd_nth, Nat.eqb_refl, Hn; reflexivity|].
    split; [|split; [apply upd_same|apply upd_nth_length]].
    intros k Hk. split; [|apply upd_other; exact Hk]. rewrite nth_upd_nth. destruct (Nat.eqb_spec i k); [congruence|].
    destruct (Nat.eqb_spec k i); [congruence|]. reflexivity.
  Qed.

  Lemma no_fall_mono d d' : same d d' -> (f_constcond (d_flags d) = true -> f_constcond (d_flags d') = true) ->
    can_fall_through d = false -> can_fall_through d' = false.
  Proof.
    intros (E1 & _ & E3 & E4 & _) C. unfold can_fall_through, is_diverging, has_const_jumpi_condition. rewrite E1, E3, E4.
    destruct (d_op d =? OP_JUMP); destruct (d_op d =? OP_JUMPI); destruct (f_constcond (d_flags d)), (f_constcond (d_flags d'));
      try (specialize (C eq_refl)); cbn; auto; try discriminate; rewrite ?andb_true_r, ?andb_false_r; auto; try (intros ->; reflexivity).
  Qed.

  Definition res_good (bot : bool) (p : bc) (i : nat) (r : jres) : Prop :=
    exists d, nth_error (b_insts p) i = Some d /\ is_jump d = true /\ shape i d r /\
      forall st y, R i st y -> cond_ok r d st /\ tgt_ok bot r d st.

  Lemma commit_one_ok bot p i r d d' m' : pre p -> nth_error (b_insts p) i = Some d -> is_jump d = true -> shape i d r ->
    (forall st y, R i st y -> cond_ok r d st /\ tgt_ok (negb bot) r d st) ->
    commit_one bot i r d (b_multi p i) = (d', m') ->
    (forall st y, R i st y -> jump_ok dest m' i d' st) /\
    (f_multi (d_flags d') = true -> is_static_jump d' = true /\ f_invalid (d_flags d') = false /\ m' <> None) /\
    (is_static_jump d' = true -> f_invalid (d_flags d') = false ->
       if f_multi (d_flags d') then forall ts t, m' = Some ts -> In t ts -> is_dest prog t
       else d_target d' = S i \/ is_dest prog (d_target d')).
  Proof.
    intros PR Hn Hj (SH1 & SH2 & SH3) HR. unfold commit_one.
    destruct (pr_targets _ _ _ _ _ _ PR i d Hn) as [TM [TG TI]].
    pose proof (fun st y H => pr_flags _ _ _ _ _ _ PR i st y d H Hn Hj) as OLD.
    assert (Same : (forall st y, R i st y -> jump_ok dest (b_multi p i) i d st) /\
      (f_multi (d_flags d) = true -> is_static_jump d = true /\ f_invalid (d_flags d) = false /\ b_multi p i <> None) /\
      (is_static_jump d = true -> f_invalid (d_flags d) = false ->
       if f_multi (d_flags d) then forall ts t, b_multi p i = Some ts -> In t ts -> is_dest prog t
       else d_target d = S i \/ is_dest prog (d_target d))) by auto.
    destruct (f_static (d_flags d) && negb (cond_known (j_cond r))) eqn:Eskip.
    { intros E. injection E as <- <-. exact Same. }
    set (cc := f_constcond (d_flags d) || cond_known (j_cond r)).
    (* the condition is never zero unless the jump was resolved to the next instruction *)
    assert (CC : cc = true -> j_cond r <> CAlwaysFalse -> d_op d = OP_JUMPI -> forall st y t st2, R i st y -> st = t :: 0 :: st2 ->
       f_static (d_flags d) = true /\ f_invalid (d_flags d) = false /\ f_multi (d_flags d) = false /\ d_target d = S i /\ cond_known (j_cond r) = false).
    { intros Hcc Hnf HI st y t st2 HRi ->. destruct (HR _ _ HRi) as [C _]. destruct (C HI _ _ _ eq_refl) as [C1 C2].
      destruct (j_cond r) eqn:Ec; [|exfalso; apply C1; reflexivity|congruence].
      subst cc. rewrite orb_false_r in Hcc.
      destruct (OLD _ _ HRi t (0 :: st2) eq_refl) as [_ X]. destruct (X HI Hcc st2 eq_refl) as (X1 & X2 & X3 & X4). auto. }
    assert (NS : cc = true -> j_cond r <> CAlwaysFalse -> d_op d = OP_JUMPI -> forall st y t st2, R i st y -> st = t :: 0 :: st2 -> False).
    { intros Hcc Hnf HI st y t st2 HRi E. destruct (CC Hcc Hnf HI _ _ _ _ HRi E) as (F & _ & _ & _ & K). rewrite F, K in Eskip. discriminate. }
    assert (Keep : (forall st y, R i st y -> jump_ok dest (b_multi p i) i (commit_flags d (f_static (d_flags d)) (f_invalid (d_flags d)) (f_multi (d_flags d)) cc) st) \/ j_cond r = CAlwaysFalse).
    { destruct (j_cond r) eqn:Ec; [left|left|right; reflexivity]; intros st y HRi t st1 E; cbn;
        (split; [destruct (OLD _ _ HRi t st1 E) as [X _]; exact X|]; intros HI Hcc st2 ->; exfalso; eapply NS; eauto; discriminate). }
    assert (KeepT : forall d1, d1 = commit_flags d (f_static (d_flags d)) (f_invalid (d_flags d)) (f_multi (d_flags d)) cc ->
       (f_multi (d_flags d1) = true -> is_static_jump d1 = true /\ f_invalid (d_flags d1) = false /\ b_multi p i <> None) /\
       (is_static_jump d1 = true -> f_invalid (d_flags d1) = false ->
         if f_multi (d_flags d1) then forall ts t, b_multi p i = Some ts -> In t ts -> is_dest prog t
         else d_target d1 = S i \/ is_dest prog (d_target d1))).
    { intros d1 ->. split; [exact TM|exact TG]. }
    destruct (j_target r) as [|ts| |] eqn:Et.
    - destruct Keep as [Keep|Keep]; [|specialize (SH1 Keep); discriminate].
      destruct bot; intros E; injection E as <- <-.
      + split; [exact Keep|]. exact (KeepT _ eq_refl).
      + cbn. split; [|split; [discriminate|discriminate]].
        intros st y HRi t st1 E. cbn. split.
        * intros _ T. destruct (HR _ _ HRi) as [_ X]. specialize (X t st1 E T). rewrite Et in X. discriminate.
        * intros HI Hcc st2 ->. exfalso. eapply NS; eauto. intros X. specialize (SH1 X). discriminate.
    - destruct (SH2 _ eq_refl) as [-> |[Hne HD]].
      + intros E. injection E as <- <-. cbn. split; [|split; [discriminate|auto]].
        intros st y HRi t st1 E. cbn. split.
        * intros _ T. destruct (HR _ _ HRi) as [_ X]. specialize (X t st1 E T). rewrite Et in X. exact X.
        * intros HI Hcc st2 ->. auto.
      + destruct ts as [|x [|x' ts]]; [contradiction| |]; intros E; injection E as <- <-; cbn.
        * split; [|split; [discriminate|intros _ _; right; apply HD; left; reflexivity]].
          intros st y HRi t st1 E. cbn. split.
          -- intros _ T. destruct (HR _ _ HRi) as [_ X]. specialize (X t st1 E T). rewrite Et in X. exact X.
          -- intros HI Hcc st2 E2. destruct (j_cond r) eqn:Ec; [exfalso|exfalso|specialize (SH1 eq_refl); assert (x = S i) by congruence; auto];
               subst st1; eapply NS; eauto; discriminate.
        * split; [|split].
          -- intros st y HRi t st1 E. cbn. split.
             ++ intros _ T. destruct (HR _ _ HRi) as [_ X]. specialize (X t st1 E T). rewrite Et in X. eauto.
             ++ intros HI Hcc st2 E2. exfalso. subst st1. eapply NS; eauto. intros X. specialize (SH1 X). discriminate.
          -- intros _. unfold is_static_jump, is_jump in *. cbn. rewrite Hj. split; [reflexivity|]. split; [reflexivity|discriminate].
          -- intros _ _ ts0 t E. injection E as <-. apply HD.
    - intros E. injection E as <- <-. cbn. split; [|split; discriminate].
      intros st y HRi t st1 E. cbn. split.
      + intros _ T. destruct (HR _ _ HRi) as [_ X]. specialize (X t st1 E T). rewrite Et in X. exact X.
      + intros HI Hcc st2 ->. exfalso. eapply NS; eauto. intros X. specialize (SH1 X). discriminate.
    - destruct Keep as [Keep|Keep]; [|specialize (SH1 Keep); discriminate].
      intros E; injection E as <- <-. split; [exact Keep|]. exact (KeepT _ eq_refl).
  Qed.

  Lemma commit_one_invalid bot i r d d' m m' : (f_invalid (d_flags d) = true -> f_static (d_flags d) = true) ->
    commit_one bot i r d m = (d', m') -> f_invalid (d_flags d') = true -> f_static (d_flags d') = true.
  Proof.
    intros H. unfold commit_one. destruct (_ && _); [intros E; injection E as <- <-; exact H|].
    destruct (j_target r) as [|[|x [|x' ts]]| |]; try (intros E; injection E as <- <-; cbn; auto; fail).
    destruct bot; intros E; injection E as <- <-; cbn; auto.
  Qed.

  Lemma commit_step_pre bot p i r : pre p -> res_good (negb bot) p i r -> pre (commit_step bot p (i, r)).
  Proof.
    intros PR (d & Hn & Hj & SH & HR).
    destruct (commit_step_insts bot p i r d Hn) as (d' & m' & Ec & Ep & Hi & Ho & Em & EL).
    destruct (commit_one_same _ _ _ _ _ _ _ Ec) as (SM & Dd & Cc).
    destruct (commit_one_ok bot p i r d d' m' PR Hn Hj SH HR Ec) as (J1 & J2 & J3).
    set (q := commit_step bot p (i, r)) in *.
    assert (PP : forall k e', nth_error (b_insts q) k = Some e' -> exists e, nth_error (b_insts p) k = Some e /\ same e e' /\
       is_dead e' = is_dead e /\ (f_constcond (d_flags e) = true -> f_constcond (d_flags e') = true)).
    { intros k e' Hk. destruct (Nat.eq_dec k i) as [-> |Hne].
      - assert (e' = d') by congruence. subst e'. eauto.
      - destruct (Ho k Hne) as [X _]. rewrite X in Hk. exists e'. split; [exact Hk|]. split; [apply same_refl|auto]. }
    constructor.
    - eapply skel_trans; [exact (pr_skel _ _ _ _ _ _ PR)|]. apply skel_of; [exact EL|].
      intros k e' Hk. destruct (PP _ _ Hk) as (e & He & S & _). eauto.
    - rewrite Ep. exact (pr_redir _ _ _ _ _ _ PR).
    - intros k st y e' HRk Hk Hjk. destruct (Nat.eq_dec k i) as [-> |Hne].
      + assert (e' = d') by congruence. subst e'. rewrite Em. eapply J1; eauto.
      + destruct (Ho k Hne) as [X1 X2]. rewrite X1 in Hk. rewrite X2. eapply (pr_flags _ _ _ _ _ _ PR); eauto.
    - intros k st y e' HRk Hk. destruct (PP _ _ Hk) as (e & He & _ & -> & _). eapply (pr_live _ _ _ _ _ _ PR); eauto.
    - destruct (pr_dead _ _ _ _ _ _ PR) as [D0 D1]. split.
      + intros e' Hk. destruct (PP _ _ Hk) as (e & He & _ & -> & _). auto.
      + intros k e' e1' Hk Hk1 Hd. destruct (PP _ _ Hk) as (e & He & S & De & C). destruct (PP _ _ Hk1) as (e1 & He1 & _ & De1 & _).
        rewrite De1 in Hd. destruct (D1 k e e1 He He1 Hd) as [X|X]; [left; congruence|right]. eapply no_fall_mono; eauto.
    - intros k e' Hk. destruct (Nat.eq_dec k i) as [-> |Hne].
      + assert (e' = d') by congruence. subst e'. rewrite Em. split; [exact J2|]. split; [exact J3|].
        eapply commit_one_invalid; [|exact Ec]. apply (pr_targets _ _ _ _ _ _ PR i d Hn).
      + destruct (Ho k Hne) as [X1 X2]. rewrite X1 in Hk. rewrite X2. apply (pr_targets _ _ _ _ _ _ PR); auto.
  Qed.

  Lemma commit_fold_pre bot : forall rs p, NoDup (map fst rs) -> pre p ->
    (forall i r, In (i, r) rs -> res_good (negb bot) p i r) ->
    pre (fold_left (commit_step bot) rs p) /\
    b_snaps (fold_left (commit_step bot) rs p) = b_snaps p /\ b_used (fold_left (commit_step bot) rs p) = b_used p /\
    b_redirects (fold_left (commit_step bot) rs p) = b_redirects p.
  Proof.
    induction rs as [|[i r] rs IH]; intros p ND PR HG; cbn [fold_left]; [auto|].
    inversion ND as [|? ? Nin ND']; subst. cbn [fst] in *.
    assert (G0 : res_good (negb bot) p i r) by (apply HG; left; reflexivity).
    pose proof G0 as (d & Hn & _). destruct (commit_step_insts bot p i r d Hn) as (d' & m' & Ec & Ep & Hi & Ho & Em & EL).
    destruct (IH (commit_step bot p (i, r)) ND') as (P1 & P2 & P3 & P4).
    - apply commit_step_pre; auto.
    - intros k s Hk. destruct (HG k s (or_intror Hk)) as (e & He & X). exists e. split; [|exact X].
      destruct (Ho k) as [X1 _]; [|congruence]. intros ->. apply Nin. apply in_map_iff. exists (i, s). auto.
    - rewrite P2, P3, P4. split; [exact P1|]. rewrite Ep. auto.
  Qed.

  Lemma commit_resolved_pre rs p p' : NoDup (map fst rs) -> pre p ->
    (forall i r, In (i, r) rs -> res_good (negb (existsb (fun ir => is_top (snd ir)) rs)) p i r) ->
    commit_resolved rs p = Some p' -> pre p' /\ b_snaps p' = b_snaps p /\ b_used p' = b_used p.
  Proof.
    intros ND PR HG E. unfold commit_resolved in E. set (bot := existsb _ rs) in *.
    destruct (commit_fold_pre bot rs p ND PR HG) as (P1 & P2 & P3 & P4).
    split; [eapply recompute_pre0; eauto|].
    destruct (recompute_reachable_shape _ _ E) as (L & P & M & R0 & D & S & B & U). split; congruence.
  Qed.
  Lemma commit_resolved_total rs p : b_redirects p = [] -> commit_resolved rs p <> None.
  Proof.
    intros RD. unfold commit_resolved. apply recompute_total.
    generalize (existsb (fun ir => is_top (snd ir)) rs). intros bot. revert p RD. induction rs as [|[i r] rs IH]; intros p RD; cbn [fold_left]; [exact RD|].
    apply IH. unfold commit_step. destruct (nth_error (b_insts p) i); [|exact RD]. destruct (commit_one _ _ _ _ _). exact RD.
  Qed.
End Commit.
