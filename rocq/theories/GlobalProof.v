(** Soundness of the block-local and the global analysis. *)
From Verif Require Import BlockModel FlowSpec CfgProof ArithSpec BlockProof LocalProof CommitProof.
From Coq Require Import ZifyBool.
Open Scope Z_scope.

(** ** Joins. *)
Section Join.
  Context (env : aenv).
  Hypothesis KEY : forall x y, a_key env x = a_key env y -> x = y.

  Lemma merge_in v : forall a b, In v a \/ In v b -> In v (merge (a_key env) a b).
  Proof.
    induction a as [|x a IHa]; intros b; [intros [[]|H]; destruct b; exact H|].
    induction b as [|y b IHb]; intros H; cbn [merge].
    - destruct H as [H|[]]. exact H.
    - destruct (Z.compare_spec (a_key env x) (a_key env y)) as [E|E|E].
      + apply KEY in E. subst y. destruct H as [[<- |H]|[<- |H]].
        * left; reflexivity.
        * right. apply IHa. auto.
        * left; reflexivity.
        * right. apply IHa. auto.
      + destruct H as [[<- |H]|H]; [left; reflexivity|right; apply IHa; auto|right; apply IHa; auto].
      + destruct H as [H|[<- |H]]; [right; apply IHb; auto|left; reflexivity|right; apply IHb; auto].
  Qed.
  Lemma intern_gamma l v : In v l -> gamma (intern_set l) v.
  Proof. destruct l as [|x [|y l]]; cbn; [intros []|intros [<- |[]]; reflexivity|auto]. Qed.
  Lemma abs_set_gamma a l v : abs_const_set a = Some l -> gamma a v -> In v l.
  Proof. destruct a; cbn; intros H G; [injection H as <-; left; auto|injection H as <-; exact G|discriminate]. Qed.

  Lemma vjoin_upper a b v : gamma a v \/ gamma b v -> gamma (vjoin env a b) v.
  Proof.
    destruct a as [x|l|], b as [y|l'|]; cbn -[merge]; auto; intros H.
    - destruct (Z.eqb_spec (a_key env x) (a_key env y)) as [E|E].
      + apply KEY in E. subst y. cbn. tauto.
      + apply intern_gamma, merge_in. cbn. intuition.
    - apply intern_gamma, merge_in. cbn. intuition.
    - apply intern_gamma, merge_in. cbn. intuition.
    - apply intern_gamma, merge_in. intuition.
  Qed.
  Lemma merge_sub v : forall a b, In v (merge (a_key env) a b) -> In v a \/ In v b.
  Proof. clear KEY.
    induction a as [|x a IHa]; intros b; [destruct b; cbn; auto|].
    induction b as [|y b IHb]; intros H; cbn [merge] in H; [auto|].
    destruct (a_key env x ?= a_key env y).
    - destruct H as [<- |H]; [left; left; reflexivity|]. destruct (IHa _ H); [left; right|right; right]; assumption.
    - destruct H as [<- |H]; [left; left; reflexivity|]. destruct (IHa _ H); [left; right|right]; assumption.
    - destruct H as [<- |H]; [right; left; reflexivity|]. destruct (IHb H); [left|right; right]; assumption.
  Qed.
  Lemma merge_nonempty x a b : merge (a_key env) (x :: a) b <> [].
  Proof. clear KEY. destruct b as [|y b]; cbn; [discriminate|]. destruct (a_key env x ?= a_key env y); discriminate. Qed.
  Lemma vjoin_exact a b v : a <> ATop -> b <> ATop -> a <> ASet [] -> b <> ASet [] ->
    gamma (vjoin env a b) v -> gamma a v \/ gamma b v.
  Proof. clear KEY.
    assert (I : forall l, l <> [] -> gamma (intern_set l) v -> In v l).
    { intros [|x [|x' l]] N G; cbn in *; [congruence|left; symmetry; exact G|exact G]. }
    intros Ha Hb Sa Sb. destruct a as [x|[|u l]|], b as [y|[|w l']|]; try congruence; cbn -[merge] in *.
    - destruct (a_key env x =? a_key env y); [cbn; auto|]. intros G. apply I, merge_sub in G; [|apply merge_nonempty]. destruct G as [[<- |[]]|[<- |[]]]; auto.
    - intros G. apply I, merge_sub in G; [|apply merge_nonempty]. destruct G as [[<- |[]]|G]; auto.
    - intros G. apply I, merge_sub in G; [|apply merge_nonempty]. destruct G as [G|[<- |[]]]; auto.
    - intros G. apply I, merge_sub in G; [|apply merge_nonempty]. destruct G as [G|G]; auto.
  Qed.

  Lemma resize_length n l : length (resize_top n l) = n.
  Proof. unfold resize_top. rewrite app_length, firstn_length, repeat_length. lia. Qed.
  Lemma resize_same l : resize_top (length l) l = l.
  Proof. unfold resize_top. rewrite firstn_all, Nat.sub_diag. apply app_nil_r. Qed.
  Lemma prel_resize n l st : prel l st -> prel (resize_top n l) st.
  Proof.
    intros P k a v Ha Hv. unfold resize_top in Ha.
    destruct (Nat.lt_ge_cases k (length (firstn n l))) as [H|H].
    - rewrite nth_error_app1 in Ha by exact H. apply (P k a v); [|exact Hv]. rewrite <- Ha. symmetry.
      rewrite <- (firstn_skipn n l) at 2. rewrite nth_error_app1 by exact H. reflexivity.
    - rewrite nth_error_app2 in Ha by exact H. apply nth_error_In, repeat_spec in Ha. subst a. exact Logic.I.
  Qed.
  Lemma join_slots_length : forall a b, length a = length b -> length (join_slots env a b) = length a.
  Proof. induction a as [|x a IH]; intros [|y b] H; cbn in *; try discriminate; auto. Qed.
  Lemma prel_join : forall a b st, length a = length b -> prel a st \/ prel b st -> prel (join_slots env a b) st.
  Proof.
    induction a as [|x a IH]; intros [|y b] st L H; cbn in *; try discriminate; [apply prel_nil|].
    destruct st as [|v st]; [intros [|k] ? ? _ X; discriminate|].
    apply prel_cons.
    - apply vjoin_upper. destruct H as [H|H]; [left|right]; apply (H 0%nat); reflexivity.
    - apply IH; [congruence|]. destruct H as [H|H]; [left|right]; eapply prel_tail; eauto.
  Qed.
  Lemma prel_firstn n A st : prel A st -> prel (firstn n A) st.
  Proof.
    intros P k a v Ha Hv. apply (P k a v); [|exact Hv]. rewrite <- Ha. symmetry.
    rewrite <- (firstn_skipn n A) at 2. rewrite nth_error_app1; [reflexivity|]. apply nth_lt in Ha. exact Ha.
  Qed.
  Lemma list_eqb_eq : forall a b, list_eqb a b = true -> a = b.
  Proof.
    induction a as [|x a IH]; intros [|y b] H; cbn in H; try discriminate; [reflexivity|].
    apply andb_true_iff in H as [H1 H2]. f_equal; [lia|auto].
  Qed.
  Lemma aval_eqb_eq a b : aval_eqb a b = true -> a = b.
  Proof. destruct a, b; cbn; intros H; try discriminate; [f_equal; lia|f_equal; apply list_eqb_eq, H|reflexivity]. Qed.
  Lemma slots_eqb_eq : forall a b, slots_eqb a b = true -> a = b.
  Proof.
    induction a as [|x a IH]; intros [|y b] H; cbn in H; try discriminate; [reflexivity|].
    apply andb_true_iff in H as [H1 H2]. f_equal; [apply aval_eqb_eq, H1|auto].
  Qed.

  (** [A] accounts for every stack described by [stk], down to the tracked depth. *)
  Definition covers (A stk : list aval) : Prop :=
    (forall st, prel stk st -> prel A st) /\ (Nat.min (length stk) 64 <= length A)%nat.

  Lemma sjoin_spec s stk s' ch : sjoin env s stk = (s', ch) ->
    exists A', s' = Some A' /\ covers A' stk /\
      (s = None -> ch = true) /\
      forall A, s = Some A -> (forall x, covers A x -> covers A' x) /\ (ch = false -> A' = A).
  Proof.
    destruct s as [ex|]; cbn [sjoin]; intros H; apply pair_equal_spec in H as [<- <-].
    - set (n := Nat.min (Nat.max (length ex) (length stk)) MAX_ABS_STACK_DEPTH) in *. unfold MAX_ABS_STACK_DEPTH in n.
      assert (LL : length (resize_top n ex) = length (resize_top n stk)) by (rewrite !resize_length; reflexivity).
      eexists. split; [reflexivity|].
      assert (LJ : length (join_slots env (resize_top n ex) (resize_top n stk)) = n) by (rewrite join_slots_length, resize_length; auto).
      split; [split|split; [discriminate|]].
      + intros st P. apply prel_join; [exact LL|]. right. apply prel_resize, P.
      + rewrite LJ. subst n. lia.
      + intros A EA. injection EA as ->. split.
        * intros x [C1 C2]. split; [|rewrite LJ; subst n; lia].
          intros st P. apply prel_join; [exact LL|]. left. apply prel_resize, C1, P.
        * intros E. apply orb_false_iff in E as [E1 E2]. apply negb_false_iff in E1, E2.
          apply slots_eqb_eq in E2. rewrite <- E2. apply Nat.eqb_eq in E1. rewrite <- E1. apply resize_same.
    - eexists. split; [reflexivity|]. split; [|split; [reflexivity|discriminate]].
      unfold covers, MAX_ABS_STACK_DEPTH. split; [intros st P; apply prel_firstn, P|]. rewrite firstn_length. lia.
  Qed.

  Lemma wpush_in q b x : In x q \/ x = b -> In x (wpush q b).
  Proof.
    unfold wpush. destruct (existsb (Nat.eqb b) q) eqn:E.
    - intros [H| ->]; [exact H|]. apply existsb_exists in E as (y & Hy & E). apply Nat.eqb_eq in E. subst y. exact Hy.
    - intros [H| ->]; apply in_or_app; [left; exact H|right; left; reflexivity].
  Qed.

  Lemma propagate_spec stk : forall succs states q states' q', propagate env succs stk states q = (states', q') ->
    incl q q' /\
    (forall b A, states b = Some A -> exists A', states' b = Some A' /\ (forall x, covers A x -> covers A' x) /\ (A' = A \/ In b q')) /\
    (forall b, In b succs -> exists A', states' b = Some A' /\ covers A' stk) /\
    (forall b, states b = None -> states' b <> None -> In b succs /\ In b q').
  Proof.
    induction succs as [|s succs IH]; intros states q states' q' H; cbn [propagate] in H.
    - injection H as <- <-. split; [apply incl_refl|]. split; [intros b A E; exists A; auto|]. split; [intros b []|congruence].
    - destruct (sjoin env (states s) stk) as [st' ch] eqn:Ej.
      destruct (sjoin_spec _ _ _ _ Ej) as (As & -> & Cs & Hn & Ho).
      destruct (IH _ _ _ _ H) as (Q & H1 & H2 & H3).
      assert (Qin : incl q (if ch then wpush q s else q)).
      { intros x Hx. destruct ch; [apply wpush_in; auto|exact Hx]. }
      assert (Qs : ch = true -> In s q') by (intros ->; apply Q; apply wpush_in; auto).
      split; [intros x Hx; apply Q, Qin, Hx|]. split; [|split].
      + intros b A E. destruct (Nat.eq_dec b s) as [-> |Hne].
        * destruct (H1 s As) as (A' & E' & C' & O'); [apply upd_same|]. exists A'. split; [exact E'|].
          destruct (Ho A E) as [C1 C2]. split; [intros x Hx; apply C', C1, Hx|].
          destruct O' as [-> |O']; [|right; exact O']. destruct ch; [right; apply Qs; reflexivity|left; apply C2; reflexivity].
        * apply (H1 b A). rewrite upd_other by exact Hne. exact E.
      + intros b [<- |Hb]; [|apply H2, Hb]. destruct (H1 s As) as (A' & E' & C' & _); [apply upd_same|].
        exists A'. split; [exact E'|apply C', Cs].
      + intros b E E'. destruct (Nat.eq_dec b s) as [-> |Hne].
        * split; [left; reflexivity|]. apply Qs, Hn, E.
        * destruct (H3 b) as [X1 X2]; [rewrite upd_other by exact Hne; exact E|exact E'|]. split; [right; exact X1|exact X2].
  Qed.
End Join.

Lemma NoDup_snoc {A} (l : list A) x : NoDup l -> ~ In x l -> NoDup (l ++ [x]).
Proof.
  intros ND Nin. pose proof (Add_app x l []) as H. rewrite app_nil_r in H. apply (NoDup_Add H). auto.
Qed.

Section Global.
  Context {Y : Type} (prog : list idata) (env : aenv)
          (sem : nat -> list Z -> Y -> option (list Z * Y)) (y0 : Y).
  Notation const := (a_const env).
  Notation dest := (a_dest env).
  Notation exec := (evm_exec const dest sem).
  Notation step := (evm_step prog const dest sem).
  Notation R := (reach prog const dest sem y0).
  Hypothesis PO : prog_ok prog const dest.
  Hypothesis SO : sem_ok prog const sem (a_codelen env).
  Notation pre := (pre prog const dest sem y0).
  Notation cfg_ok := (cfg_ok prog const dest sem y0).
  Notation snap_ok := (snap_ok prog env sem).
  Notation res_good := (res_good prog env sem y0).
  Let DEST := po_dest _ _ _ PO.

  (** Snapshots that are right at every reached state, with all operands of what can execute. *)
  Definition good_at (sn : snaps) (i : nat) (st : list Z) (y : Y) (d : idata) : Prop :=
    snap_ok sn i st y /\
    (0 < Z.to_nat (fst (d_io d)) -> Z.to_nat (fst (d_io d)) <= length st -> length (sn_in sn i) = Z.to_nat (fst (d_io d)))%nat.
  Definition good (sn : snaps) : Prop :=
    forall i st y d, R i st y -> nth_error prog i = Some d -> good_at sn i st y d.
  Definition agree (s1 s2 : snaps) (i : nat) : Prop := sn_in s1 i = sn_in s2 i /\ sn_out s1 i = sn_out s2 i.
  Lemma agree_sym s1 s2 i : agree s1 s2 i -> agree s2 s1 i. Proof. intros []; split; auto. Qed.
  Lemma agree_trans s1 s2 s3 i : agree s1 s2 i -> agree s2 s3 i -> agree s1 s3 i. Proof. intros [] []; split; congruence. Qed.
  Lemma good_at_agree s1 s2 i st y d : agree s1 s2 i -> good_at s1 i st y d -> good_at s2 i st y d.
  Proof. intros [E1 E2] [[G1 G2] G3]. unfold good_at, LocalProof.snap_ok. rewrite <- E1, <- E2. auto. Qed.

  Lemma jump_io d0 i : nth_error prog i = Some d0 -> is_jump d0 = true -> d_io d0 = (if d_op d0 =? OP_JUMP then (1, 0) else (2, 0)).
  Proof.
    intros Hn Hj. unfold is_jump, OP_JUMP, OP_JUMPI in *.
    assert (O : d_op d0 = 0x56 \/ d_op d0 = 0x57) by lia.
    destruct (po_io _ _ _ PO i d0 Hn (po_jump _ _ _ PO i d0 Hn O)) as (_ & _ & _ & _ & _ & _ & _ & _ & _ & J & JI & _).
    destruct O as [O|O]; rewrite O; [apply J, O|apply JI, O].
  Qed.

  Section P.
    Variable p : bc.
    Hypothesis OK : cfg_ok p.
    Notation insts := (b_insts p).
    Notation tops := (tops p).
    Notation tracks := (tracks prog env sem y0 p).
    Let SK := pr_skel _ _ _ _ _ _ (co_pre _ _ _ _ _ _ OK).
    Let iof := inst_of prog env sem y0 p OK.

    Definition ran (sn : snaps) (bl : blk) (A0 : list aval) (u0 : Z) (ok : bool) (stk : list aval) : Prop :=
      exists sn0 sn1 u1, interp_block env insts (blk_insts bl) A0 sn0 u0 = (ok, stk, sn1, u1) /\
        forall i, (bk_start bl <= i < bk_end bl)%nat -> agree sn sn1 i.
    (** Entries that are never written keep their initial value. *)
    Definition frame (sn init : snaps) : Prop :=
      forall i d, nth_error insts i = Some d ->
        (Z.to_nat (fst (d_io d)) = 0%nat -> sn_in sn i = sn_in init i) /\ (records_out d = false -> sn_out sn i = sn_out init i).

    Lemma good_jump sn i st y d : good_at sn i st y d -> nth_error insts i = Some d -> is_jump d = true -> jump_snap sn i d st.
    Proof.
      intros [[G1 _] G3] Hn Hj. destruct (iof i d Hn) as (d0 & H0 & (E1 & E2 & _)).
      split; [exact G1|]. intros L. apply G3; [|exact L].
      rewrite E2, (jump_io d0 i H0); [|unfold is_jump in *; rewrite <- E1; exact Hj]. destruct (d_op d0 =? OP_JUMP); cbn; lia.
    Qed.
    Lemma jump_io_p i d : nth_error insts i = Some d -> is_jump d = true -> d_io d = (if d_op d =? OP_JUMP then (1, 0) else (2, 0)).
    Proof.
      intros Hn Hj. destruct (iof i d Hn) as (d0 & H0 & (E1 & E2 & _)).
      rewrite E1, E2. apply (jump_io d0 i H0). unfold is_jump in *. rewrite <- E1. exact Hj.
    Qed.

    Lemma good_resolve sn i st y d : good_at sn i st y d -> nth_error insts i = Some d -> is_jump d = true ->
      cond_ok (resolve_jump env insts sn i) d st /\ tgt_ok env true (resolve_jump env insts sn i) d st.
    Proof.
      intros G Hn Hj. apply resolve_ok; auto; [apply (jump_io_p i d Hn Hj)|eapply good_jump; eauto].
    Qed.
    Lemma tgt_ok_any b r d st : tgt_ok env true r d st -> tgt_ok env b r d st.
    Proof.
      intros T t st1 E1 E2. specialize (T t st1 E1 E2). destruct (j_target r); auto. discriminate.
    Qed.

    (** A tracked state with enough operands has right snapshots. *)
    Lemma ran_good sn init bl ste A0 u0 ok stk i st y d A u :
      ran sn bl A0 u0 ok stk -> frame sn init -> tracks bl ste A0 u0 i st A u -> nth_error insts i = Some d -> is_dead d = false -> R i st y ->
      (fst (d_io d) <= Z.of_nat (length st) -> fst (d_io d) <= Z.of_nat (length A)) ->
      snap_ok init i st y -> good_at sn i st y d.
    Proof.
      intros (sn0 & sn1 & u1 & Hrun & Ag) FR T Hn Hd HR HI HS.
      pose proof T as ((Hr & _) & _).
      destruct (Ag i Hr) as [A1 A2]. destruct (FR i d Hn) as [F1 F2].
      destruct (tracks_snap prog env sem y0 PO SO p OK bl ste A0 u0 sn0 ok stk sn1 u1 i st y d A u init T Hn Hd HR HI Hrun HS) as [S1 S2].
      - intros E. rewrite <- A1. auto.
      - intros E. rewrite <- A2. auto.
      - eapply good_at_agree; [split; [symmetry; exact A1|symmetry; exact A2]|]. split; assumption.
    Qed.

    (** ** The local analysis. *)
    Record linv (init : snaps) (dn : list blk) (rs : list (nat * jres)) (sn : snaps) : Prop := {
      li_ran : forall bl, In bl dn -> exists u0 ok stk, ran sn bl (tops bl) u0 ok stk;
      li_frame : frame sn init;
      li_nodup : NoDup (map fst rs);
      li_rs : forall i r, In (i, r) rs -> exists bl d t, In bl dn /\ i = terminator bl /\ nth_error insts i = Some d /\ is_jump d = true /\
                r = resolve_jump env insts sn i /\ j_target r = JResolved [t]
    }.

    Lemma resolve_agree s1 s2 i : agree s1 s2 i -> resolve_jump env insts s1 i = resolve_jump env insts s2 i.
    Proof. intros [E _]. unfold resolve_jump. rewrite E. reflexivity. Qed.

    Lemma local_fold init : forall l dn rs sn u rs' sn' u', b_blocks p = dn ++ l ->
      fold_left (local_block env p) l (rs, (sn, u)) = (rs', (sn', u')) -> linv init dn rs sn -> linv init (dn ++ l) rs' sn'.
    Proof.
      induction l as [|bl l IH]; intros dn rs sn u rs' sn' u' EB H I; cbn [fold_left] in H.
      - injection H as -> -> _. rewrite app_nil_r. exact I.
      - destruct (local_block env p (rs, (sn, u)) bl) as [rs1 [sn1 u1]] eqn:E1.
        change (bl :: l) with ([bl] ++ l) in *. rewrite app_assoc in *.
        apply (IH (dn ++ [bl]) rs1 sn1 u1 rs' sn' u' EB H). clear IH H rs' sn' u'.
        unfold local_block in E1.
        destruct (interp_block env insts (blk_insts bl) (repeat ATop (block_inputs insts bl)) sn u) as [[[ok stk] sn2] u2] eqn:Er.
        assert (Hb : nth_error (b_blocks p) (length dn) = Some bl).
        { rewrite EB, <- app_assoc. rewrite nth_error_app2 by lia. rewrite Nat.sub_diag. reflexivity. }
        pose proof (block_bounds _ _ _ _ _ p OK _ _ Hb) as BB.
        assert (DJ : forall bl' i, In bl' dn -> (bk_start bl' <= i < bk_end bl')%nat -> ~ In i (blk_insts bl)).
        { intros bl' i Hin Hi Hi'. apply in_seq in Hi'. apply In_nth_error in Hin as [k Hk].
          assert (Hk' : nth_error (b_blocks p) k = Some bl').
          { rewrite EB, <- app_assoc. rewrite nth_error_app1 by (apply nth_lt in Hk; exact Hk). exact Hk. }
          destruct (block_unique _ _ _ _ _ p OK _ _ _ _ i Hb Hk') as [X _]; [lia|exact Hi|]. apply nth_lt in Hk. lia. }
        destruct (interp_block_run env insts _ _ _ _ _ _ _ _ (seq_NoDup _ _) Er) as (_ & Hframe & Hfr & _).
        assert (RS : sn1 = sn2 /\ (rs1 = rs \/ exists d t, ok = true /\ rs1 = rs ++ [(terminator bl, resolve_jump env insts sn2 (terminator bl))] /\
           nth_error insts (terminator bl) = Some d /\ is_jump d = true /\ j_target (resolve_jump env insts sn2 (terminator bl)) = JResolved [t])).
        { destruct (nth_error insts (terminator bl)) as [d|] eqn:Hd; [|rewrite andb_false_r in E1; injection E1 as <- <- _; auto].
          destruct (ok && (is_jump d && negb (f_static (d_flags d)))) eqn:Eo; [|injection E1 as <- <- _; auto].
          apply andb_true_iff in Eo as [Eo Ej]. apply andb_true_iff in Ej as [Ej _].
          destruct (j_target (resolve_jump env insts sn2 (terminator bl))) as [|[|t [|t' ts]]| |] eqn:Et;
            injection E1 as <- <- _; split; try reflexivity; auto.
          right. exists d, t. auto. }
        destruct RS as [-> RS]. clear E1.
        assert (AG : forall bl' i, In bl' dn -> (bk_start bl' <= i < bk_end bl')%nat -> agree sn2 sn i).
        { intros bl' i Hin Hi. apply (Hframe i). eapply DJ; eauto. }
        assert (TR : forall bl', In bl' dn -> (bk_start bl' <= terminator bl' < bk_end bl')%nat).
        { intros bl' Hin. apply In_nth_error in Hin as [k Hk].
          assert (Hk' : nth_error (b_blocks p) k = Some bl').
          { rewrite EB, <- app_assoc. rewrite nth_error_app1 by (apply nth_lt in Hk; exact Hk). exact Hk. }
          pose proof (block_bounds _ _ _ _ _ p OK _ _ Hk'). unfold terminator. lia. }
        assert (OLD : forall i r, In (i, r) rs -> exists bl0 d t, In bl0 (dn ++ [bl]) /\ i = terminator bl0 /\ nth_error insts i = Some d /\ is_jump d = true /\
                r = resolve_jump env insts sn2 i /\ j_target r = JResolved [t]).
        { intros i r Hin. destruct (li_rs _ _ _ _ I i r Hin) as (bl0 & d & t & X1 & X2 & X3 & X4 & X5 & X6).
          exists bl0, d, t. split; [apply in_or_app; left; exact X1|]. split; [exact X2|]. split; [exact X3|]. split; [exact X4|]. split; [|exact X6].
          rewrite X5. apply resolve_agree, agree_sym. eapply AG; [exact X1|]. subst i. apply TR, X1. }
        constructor.
        + intros bl' Hin. apply in_app_or in Hin as [Hin|[<- |[]]].
          * destruct (li_ran _ _ _ _ I bl' Hin) as (u0 & ok' & stk' & s0 & s1 & v1 & Hrun & Ag).
            exists u0, ok', stk', s0, s1, v1. split; [exact Hrun|]. intros i Hi. eapply agree_trans; [eapply AG; eauto|apply Ag, Hi].
          * exists u, ok, stk, sn, sn2, u2. split; [exact Er|]. intros i Hi. split; reflexivity.
        + intros i d Hi. destruct (li_frame _ _ _ _ I i d Hi) as [F1 F2]. destruct (Hfr i d Hi) as [G1 G2].
          split; intros X; [rewrite G1, F1|rewrite G2, F2]; auto.
        + destruct RS as [-> |(d & t & _ & -> & _)]; [apply (li_nodup _ _ _ _ I)|].
          rewrite map_app. cbn [map fst]. 
          apply NoDup_snoc; [apply (li_nodup _ _ _ _ I)|].
          intros Hin. apply in_map_iff in Hin as ([i r] & Ei & Hin). cbn in Ei. subst i.
          destruct (li_rs _ _ _ _ I _ _ Hin) as (bl0 & d0 & t0 & X1 & X2 & _).
          apply (DJ bl0 (terminator bl) X1); [rewrite X2; apply TR, X1|]. apply in_seq. unfold terminator. lia.
        + intros i r Hin. destruct RS as [-> |(d & t & _ & -> & Hd & Hj & Ht)]; [apply OLD, Hin|].
          apply in_app_or in Hin as [Hin|[Hin|[]]]; [apply OLD, Hin|]. injection Hin as <- <-.
          exists bl, d, t. split; [apply in_or_app; right; left; reflexivity|]. auto.
    Qed.

    Lemma local_good init rs sn : linv init (b_blocks p) rs sn -> (forall i st y, R i st y -> snap_ok init i st y) -> good sn.
    Proof.
      intros I HI i st y d0 HR H0.
      destruct SK as [SL SS]. destruct (nth_some insts i) as [d Hn]; [apply nth_lt in H0; congruence|].
      pose proof (SS i d0 d H0 Hn) as (_ & E2 & _).
      destruct (local_tracks prog env sem y0 PO SO p OK i st y d HR Hn) as (b & bl & ste & Hb & HE & HT).
      destruct (li_ran _ _ _ _ I bl) as (u0 & ok & stk & Hran); [eapply nth_error_In; eauto|].
      destruct (HT u0) as (A & u & T).
      assert (Hd : is_dead d = false) by (eapply (pr_live _ _ _ _ _ _ (co_pre _ _ _ _ _ _ OK)); eauto).
      assert (G : good_at sn i st y d).
      { eapply ran_good; eauto using (li_frame _ _ _ _ I). intros LI. eapply (local_enough prog env sem y0 p); eauto. }
      destruct G as [G1 G2]. split; [exact G1|]. rewrite <- E2. exact G2.
    Qed.
    Lemma good_p sn i st y d : good sn -> R i st y -> nth_error insts i = Some d -> good_at sn i st y d.
    Proof.
      intros G HR Hn. destruct (iof i d Hn) as (d0 & H0 & (_ & E2 & _)). destruct (G i st y d0 HR H0) as [G1 G2].
      split; [exact G1|]. rewrite E2. exact G2.
    Qed.

    Theorem local_analysis_ok p' : (forall i st y, R i st y -> snap_ok (b_snaps p) i st y) ->
      block_analysis_local env p = Some p' -> pre p' /\ good (b_snaps p').
    Proof.
      intros HI H. unfold block_analysis_local in H.
      destruct (fold_left (local_block env p) (b_blocks p) ([], (b_snaps p, b_used p))) as [rs [sn used]] eqn:Ef.
      destruct (commit_resolved rs (with_snaps p sn used)) as [p1|] eqn:Ec; [|discriminate]. injection H as <-.
      assert (I : linv (b_snaps p) (b_blocks p) rs sn).
      { change (b_blocks p) with ([] ++ b_blocks p) at 1. eapply local_fold; [reflexivity|exact Ef|].
        constructor; [intros bl []|intros i d _; auto|constructor|intros i r []]. }
      pose proof (local_good _ _ _ I HI) as G.
      destruct (commit_resolved_pre prog env sem y0 rs (with_snaps p sn used) p1) as (P1 & P2 & P3).
      - apply (li_nodup _ _ _ _ I).
      - eapply pre_ext; [..|exact (co_pre _ _ _ _ _ _ OK)]; reflexivity.
      - intros i r Hin. destruct (li_rs _ _ _ _ I i r Hin) as (bl & d & t & X1 & X2 & X3 & X4 & X5 & X6).
        exists d. split; [exact X3|]. split; [exact X4|]. split; [rewrite X5; eapply resolve_shape; eauto|].
        intros st y HR. destruct (good_resolve sn i st y d (good_p _ _ _ _ _ G HR X3) X3 X4) as [C T]. rewrite X5.
        split; [exact C|]. apply tgt_ok_any, T.
      - exact Ec.
      - split; [|cbn; rewrite P2; exact G]. eapply pre_ext; [..|exact P1]; reflexivity.
    Qed.
  End P.
End Global.
