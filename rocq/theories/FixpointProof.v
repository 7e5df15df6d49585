(** The fixpoint, the suspect set and the resolutions of the global analysis. *)
From Verif Require Import BlockModel FlowSpec CfgProof ArithSpec BlockProof LocalProof CommitProof GlobalProof.
From Coq Require Import ZifyBool.
Open Scope Z_scope.

(** ** Suspects. *)
Section Spread.
  Context (p : bc) (disc : nat -> list nat).
  Notation n := (length (b_blocks p)).
  Definition edges (b : nat) : list nat := match nth_error (b_blocks p) b with Some bl => bk_succs bl | None => [] end ++ disc b.
  Hypothesis RNG : forall b c, In c (edges b) -> (c < n)%nat.

  Lemma suspect_fold succs : forall w s w' s', fold_left suspect_succ succs (w, s) = (w', s') ->
    (forall b, s b = true -> s' b = true) /\ incl w w' /\ (forall b, s' b = true -> s b = true \/ In b w') /\
    (forall c, In c succs -> s' c = true) /\
    (forall b, s' b = true -> s b = true \/ In b succs) /\
    (NoDup w -> (forall b, In b w -> s b = true) -> NoDup w' /\ (forall b, In b w' -> s' b = true)).
  Proof.
    induction succs as [|c succs IH]; intros w s w' s' H; cbn [fold_left] in H.
    - injection H as <- <-. split; [auto|]. split; [apply incl_refl|]. split; [auto|]. split; [intros ? []|]. auto.
    - unfold suspect_succ at 2 in H. destruct (s c) eqn:Ec.
      + destruct (IH _ _ _ _ H) as (H1 & H2 & H3 & H4 & H5 & H6). split; [exact H1|]. split; [exact H2|]. split; [exact H3|].
        split; [intros x [<- |Hx]; [apply H1, Ec|apply H4, Hx]|]. split; [intros b Hb; destruct (H5 b Hb); [left|right; right]; auto|exact H6].
      + destruct (IH _ _ _ _ H) as (H1 & H2 & H3 & H4 & H5 & H6).
        assert (U : forall b, s b = true -> upd s c true b = true).
        { intros b Hb. unfold upd. destruct (b =? c)%nat; auto. }
        split; [intros b Hb; apply H1, U, Hb|]. split; [intros x Hx; apply H2, in_or_app; left; exact Hx|].
        assert (V : forall b, upd s c true b = true -> s b = true \/ b = c).
        { intros b. unfold upd. destruct (Nat.eqb_spec b c); auto. }
        split.
        { intros b Hb. destruct (H3 b Hb) as [X|X]; [|right; exact X]. destruct (V b X) as [X1| ->]; [left; exact X1|right].
          apply H2, in_or_app. right; left; reflexivity. }
        split; [intros x [<- |Hx]; [apply H1; apply upd_same|apply H4, Hx]|].
        split.
        { intros b Hb. destruct (H5 b Hb) as [X|X]; [|right; right; exact X]. destruct (V b X) as [X1| ->]; [left; exact X1|right; left; reflexivity]. }
        intros ND Hw. apply H6.
        * apply NoDup_snoc; [exact ND|]. intros X. apply Hw in X. congruence.
        * intros b Hb. apply in_app_or in Hb as [Hb|[<- |[]]]; [apply U, Hw, Hb|apply upd_same].
  Qed.

  Lemma spread_closed fuel : forall work sus sus', spread p disc fuel work sus = Some sus' ->
    (forall b, sus b = true -> In b work \/ forall c, In c (edges b) -> sus c = true) ->
    (forall b, sus b = true -> sus' b = true) /\ (forall b c, sus' b = true -> In c (edges b) -> sus' c = true).
  Proof.
    induction fuel as [|f IH]; intros work sus sus' H I.
    - destruct work as [|b work]; [|discriminate]. cbn in H. injection H as <-. split; [auto|].
      intros b c Hb Hc. destruct (I b Hb) as [[]|X]. auto.
    - destruct work as [|b work]; cbn [spread] in H.
      + injection H as <-. split; [auto|]. intros b c Hb Hc. destruct (I b Hb) as [[]|X]. auto.
      + fold (edges b) in H. destruct (fold_left suspect_succ (edges b) (work, sus)) as [w1 s1] eqn:E.
        destruct (suspect_fold _ _ _ _ _ E) as (H1 & H2 & H3 & H4 & H5 & H6).
        destruct (IH _ _ _ H) as [A B].
        * intros x Hx. destruct (H3 x Hx) as [X|X]; [|left; exact X].
          destruct (I x X) as [[<- |Y]|Y]; [right; exact H4|left; apply H2, Y|right; intros c Hc; apply H1, Y, Hc].
        * split; [intros x Hx; apply A, H1, Hx|exact B].
  Qed.

  (** Each block enters the worklist once. *)
  Definition unmarked (s : nat -> bool) : nat := length (filter (fun b => negb (s b)) (seq 0 n)).
  Lemma filter_le {A} (f g : A -> bool) l : (forall x, f x = true -> g x = true) -> (length (filter f l) <= length (filter g l))%nat.
  Proof.
    intros H. induction l as [|x l IH]; cbn; [lia|]. destruct (f x) eqn:E; [rewrite (H x E)|destruct (g x)]; cbn; lia.
  Qed.
  Lemma unmarked_upd s c : s c = false -> (c < n)%nat -> unmarked s = S (unmarked (upd s c true)).
  Proof.
    intros Hc Hn. unfold unmarked.
    replace n with (c + S (n - c - 1))%nat by lia. rewrite seq_app. cbn [seq plus]. rewrite !filter_app. cbn [filter].
    rewrite Hc, upd_same. cbn [negb]. rewrite !app_length. cbn [length].
    assert (E : forall l, ~ In c l -> filter (fun b => negb (upd s c true b)) l = filter (fun b => negb (s b)) l).
    { intros l Nin. apply filter_ext_in. intros a Ha. rewrite upd_other; [reflexivity|]. intros ->. contradiction. }
    rewrite !E; [lia|rewrite in_seq; lia|rewrite in_seq; lia].
  Qed.
  Lemma suspect_measure succs : (forall c, In c succs -> (c < n)%nat) -> forall w s w' s', fold_left suspect_succ succs (w, s) = (w', s') ->
    (length w' + unmarked s' = length w + unmarked s)%nat.
  Proof.
    induction succs as [|c succs IH]; intros HN w s w' s' H; cbn [fold_left] in H; [injection H as <- <-; reflexivity|].
    unfold suspect_succ at 2 in H. destruct (s c) eqn:Ec.
    - apply (IH (fun x Hx => HN x (or_intror Hx)) _ _ _ _ H).
    - rewrite (IH (fun x Hx => HN x (or_intror Hx)) _ _ _ _ H). rewrite app_length. cbn [length].
      rewrite (unmarked_upd s c Ec (HN c (or_introl eq_refl))). lia.
  Qed.
  Lemma spread_total fuel : forall work sus, (length work + unmarked sus <= fuel)%nat -> spread p disc fuel work sus <> None.
  Proof.
    induction fuel as [|f IH]; intros work sus H.
    - destruct work; [discriminate|cbn in H; lia].
    - destruct work as [|b work]; [discriminate|]. cbn [spread]. fold (edges b).
      destruct (fold_left suspect_succ (edges b) (work, sus)) as [w1 s1] eqn:E. apply IH.
      rewrite (suspect_measure (edges b) (RNG b) _ _ _ _ E). cbn in H. lia.
  Qed.
  Lemma suspects_total states : suspects p states disc <> None.
  Proof.
    unfold suspects. apply spread_total. unfold unmarked.
    assert (K : forall (f : nat -> bool) l, (length (filter f l) + length (filter (fun b => negb (f b)) l) <= length l)%nat).
    { intros f l. induction l as [|x l IH]; [cbn; lia|]. cbn [filter]. destruct (f x); cbn [length negb]; lia. }
    specialize (K (seed_suspect p states) (seq 0 n)). rewrite (seq_length n 0) in K. exact K.
  Qed.
  Lemma suspects_spec states sus : suspects p states disc = Some sus ->
    (forall b, seed_suspect p states b = true -> sus b = true) /\ (forall b c, sus b = true -> In c (edges b) -> sus c = true).
  Proof.
    intros H. unfold suspects in H. apply spread_closed in H; [exact H|].
    intros b Hb. left. apply filter_In. split; [|exact Hb].
    unfold seed_suspect in Hb. destruct (states b); [|discriminate]. destruct (nth_error (b_blocks p) b) eqn:E; [|discriminate].
    apply nth_lt in E. apply in_seq. lia.
  Qed.
End Spread.

Lemma discover_old env p a disc b : In b disc -> In b (discover env p a disc).
Proof.
  unfold discover. destruct (abs_const_set a) as [l|]; [|auto]. revert disc. induction l as [|v l IH]; intros disc H; cbn [fold_left]; [exact H|].
  apply IH. destruct (a_dest env v); [apply add_succ_old|]; exact H.
Qed.
Lemma discover_new env p a disc l v t b : abs_const_set a = Some l -> In v l -> a_dest env v = Some t -> inst_to_block p t = Some b ->
  In b (discover env p a disc).
Proof.
  unfold discover. intros -> Hv Ht Hb. revert disc. induction l as [|w l IH]; intros disc; [destruct Hv|]. cbn [fold_left].
  destruct Hv as [-> |Hv]; [|apply IH, Hv]. rewrite Ht, Hb. clear IH.
  assert (K : forall l disc, In b disc -> In b (fold_left (fun acc v => match a_dest env v with Some t => add_succ (inst_to_block p t) acc | None => acc end) l disc)).
  { clear. induction l as [|v l IH]; intros disc H; cbn [fold_left]; [exact H|]. apply IH. destruct (a_dest env v); [apply add_succ_old|]; exact H. }
  apply K, add_succ_new.
Qed.
Lemma discover_inv env p a disc b : In b (discover env p a disc) -> In b disc \/ exists v t, a_dest env v = Some t /\ inst_to_block p t = Some b.
Proof.
  unfold discover. destruct (abs_const_set a) as [l|]; [|auto]. revert disc. induction l as [|v l IH]; intros disc H; cbn [fold_left] in H; [auto|].
  apply IH in H as [H|H]; [|auto]. destruct (a_dest env v) as [t|] eqn:E; [|auto].
  apply add_succ_inv in H as [H|H]; [auto|]. right. eauto.
Qed.

Lemma restore_from_spec saved : forall idx s i, agree (restore_from s idx saved) (if existsb (Nat.eqb i) idx then saved else s) i.
Proof.
  unfold restore_from. induction idx as [|k idx IH]; intros s i; cbn [fold_left existsb]; [split; reflexivity|].
  specialize (IH (set_out (set_in s k (sn_in saved k)) k (sn_out saved k)) i).
  destruct (existsb (Nat.eqb i) idx) eqn:E; [rewrite orb_true_r; exact IH|]. rewrite orb_false_r.
  eapply agree_trans; [exact IH|]. destruct (Nat.eqb_spec i k) as [-> |Hne].
  - split; cbn; apply upd_same.
  - split; cbn; apply upd_other; exact Hne.
Qed.

Section Fx.
  Context {Y : Type} (prog : list idata) (env : aenv)
          (sem : nat -> list Z -> Y -> option (list Z * Y)) (y0 : Y).
  Notation const := (a_const env).
  Notation dest := (a_dest env).
  Notation step := (evm_step prog const dest sem).
  Notation R := (reach prog const dest sem y0).
  Hypothesis PO : prog_ok prog const dest.
  Hypothesis SO : sem_ok prog const sem (a_codelen env).
  Hypothesis KEY : forall x y, a_key env x = a_key env y -> x = y.
  Notation pre := (pre prog const dest sem y0).
  Notation cfg_ok := (cfg_ok prog const dest sem y0).
  Notation snap_ok := (snap_ok prog env sem).
  Notation res_good := (res_good prog env sem y0).
  Notation good := (good prog env sem y0).
  Notation good_at := (good_at prog env sem).
  Let DEST := po_dest _ _ _ PO.

  Variable p : bc.
  Hypothesis OK : cfg_ok p.
  Notation insts := (b_insts p).
  Notation blocks := (b_blocks p).
  Notation tracks := (tracks prog env sem y0 p).
  Notation ran := (ran env p).
  Notation frame := (frame p).
  Notation local := (b_snaps p).
  Let SK := pr_skel _ _ _ _ _ _ (co_pre _ _ _ _ _ _ OK).
  Let iof := inst_of prog env sem y0 p OK.
  Let bounds := block_bounds _ _ _ _ _ p OK.

  (** Block [b], with current state [A0], needs no further work: its snapshots are those of a run from
      [A0] and the result has been passed on. *)
  Definition settled (s : fx) (b : nat) (bl : blk) (A0 : list aval) (u0 : Z) (ok : bool) (stk : list aval) : Prop :=
    ran (fx_snaps s) bl A0 u0 ok stk /\
    (ok = true ->
      (forall d a l v t b', nth_error insts (terminator bl) = Some d -> is_jump d = true -> f_static (d_flags d) = false ->
         last (map Some (sn_in (fx_snaps s) (terminator bl))) None = Some a -> abs_const_set a = Some l -> In v l ->
         dest v = Some t -> inst_to_block p t = Some b' -> In b' (fx_disc s b)) /\
      (forall b', In b' (bk_succs bl ++ fx_disc s b) -> exists A', fx_states s b' = Some A' /\ covers A' stk)).

  Record finv (s : fx) (extra : list nat) : Prop := {
    fi_zero : fx_states s 0%nat <> None;
    fi_set : forall b A0 bl, fx_states s b = Some A0 -> nth_error blocks b = Some bl ->
      In b extra \/ In b (fx_queue s) \/ exists u0 ok stk, settled s b bl A0 u0 ok stk;
    fi_bot : forall b bl i, fx_states s b = None -> nth_error blocks b = Some bl -> (bk_start bl <= i < bk_end bl)%nat ->
      agree (fx_snaps s) local i;
    fi_frame : frame (fx_snaps s) local;
    fi_pred : forall b, fx_states s b <> None -> b = 0%nat \/
      exists b' bl', nth_error blocks b' = Some bl' /\ fx_states s b' <> None /\ In b (bk_succs bl' ++ fx_disc s b');
    fi_disc : forall b b', In b' (fx_disc s b) -> exists bl' d, nth_error blocks b' = Some bl' /\
      nth_error insts (bk_start bl') = Some d /\ is_jumpdest d = true
  }.

  Lemma finv_pop s bid q : finv s [] -> fx_queue s = bid :: q ->
    finv (mkFx (fx_states s) q (fx_disc s) (fx_snaps s) (fx_used s)) [bid].
  Proof.
    intros [A B C D E F] Q. constructor; cbn; auto.
    intros b A0 bl Hs Hb. destruct (B b A0 bl Hs Hb) as [[]|[X|X]].
    - rewrite Q in X. destruct X as [<- |X]; auto.
    - right; right. exact X.
  Qed.

  Lemma fx_step_inv bid s : finv s [bid] -> finv (fx_step env p bid s) [].
  Proof.
    intros [Z0 ST BT FR PD DC]. unfold fx_step.
    destruct (fx_states s bid) as [stk0|] eqn:Es.
    2:{ constructor; auto. intros b A0 bl Hs Hb. destruct (ST b A0 bl Hs Hb) as [[<- |[]]|X]; [congruence|right; exact X]. }
    destruct (nth_error blocks bid) as [b|] eqn:Eb.
    2:{ constructor; auto. intros b A0 bl Hs Hb. destruct (ST b A0 bl Hs Hb) as [[<- |[]]|X]; [congruence|right; exact X]. }
    destruct (interp_block env insts (blk_insts b) stk0 (fx_snaps s) (fx_used s)) as [[[ok stk] sn] used] eqn:Er.
    destruct (interp_block_run env insts _ _ _ _ _ _ _ _ (seq_NoDup _ _) Er) as (_ & Hout & Hfr & _).
    pose proof (bounds _ _ Eb) as BB.
    assert (Hin : forall i, (bk_start b <= i < bk_end b)%nat <-> In i (blk_insts b)) by (intros i; unfold blk_insts; rewrite in_seq; lia).
    assert (Other : forall b1 bl1 i, b1 <> bid -> nth_error blocks b1 = Some bl1 -> (bk_start bl1 <= i < bk_end bl1)%nat -> agree sn (fx_snaps s) i).
    { intros b1 bl1 i Hne Hb1 Hi. apply (Hout i). intros X. apply Hin in X.
      destruct (block_unique _ _ _ _ _ p OK _ _ _ _ i Eb Hb1 X Hi). congruence. }
    assert (Ran : ran sn b stk0 (fx_used s) ok stk).
    { exists (fx_snaps s), sn, used. split; [exact Er|]. intros i _. split; reflexivity. }
    assert (FR' : frame sn local).
    { intros i d Hi. destruct (FR i d Hi) as [F1 F2]. destruct (Hfr i d Hi) as [G1 G2]. split; intros X; [rewrite G1, F1|rewrite G2, F2]; auto. }
    destruct ok.
    2:{ constructor; cbn; auto.
        - intros b1 A0 bl Hs Hb. right. destruct (Nat.eq_dec b1 bid) as [-> |Hne].
          + right. exists (fx_used s), false, stk. assert (bl = b) by congruence. subst bl. assert (A0 = stk0) by congruence. subst A0.
            split; [exact Ran|discriminate].
          + destruct (ST b1 A0 bl Hs Hb) as [[X|[]]|[X|(u0 & ok & st1 & (s0 & s1 & v1 & Hrun & Ag) & S2)]]; [congruence|left; exact X|right].
            exists u0, ok, st1. split.
            * exists s0, s1, v1. split; [exact Hrun|]. intros i Hi. eapply agree_trans; [apply (Other b1 bl i Hne Hb Hi)|apply Ag, Hi].
            * cbn. intros Ho. destruct (S2 Ho) as [S3 S4]. split; [|exact S4].
              intros d a l v t b' H1 H2 H3 H4. apply (S3 d a l v t b' H1 H2 H3).
              destruct (Other b1 bl (terminator bl) Hne Hb) as [X _]; [pose proof (bounds _ _ Hb); unfold terminator; lia|]. rewrite <- X. exact H4.
        - intros b1 bl i Hs Hb Hi. eapply agree_trans; [apply (Other b1 bl i); [congruence|exact Hb|exact Hi]|eapply BT; eauto]. }
    set (term := terminator b) in *.
    set (disc := match nth_error insts term with
                 | Some d => if is_jump d && negb (f_static (d_flags d))
                             then match last (map Some (sn_in sn term)) None with
                                  | Some a => upd (fx_disc s) bid (discover env p a (fx_disc s bid)) | None => fx_disc s end
                             else fx_disc s
                 | None => fx_disc s end).
    assert (D1 : forall b1, b1 <> bid -> disc b1 = fx_disc s b1).
    { intros b1 Hne. subst disc. destruct (nth_error insts term); [|reflexivity]. destruct (_ && _); [|reflexivity].
      destruct (last _ _); [|reflexivity]. apply upd_other. exact Hne. }
    assert (D2 : forall x, In x (fx_disc s bid) -> In x (disc bid)).
    { intros x Hx. subst disc. destruct (nth_error insts term); [|exact Hx]. destruct (_ && _); [|exact Hx].
      destruct (last _ _); [|exact Hx]. rewrite upd_same. apply discover_old. exact Hx. }
    assert (D3 : forall d a l v t b', nth_error insts term = Some d -> is_jump d = true -> f_static (d_flags d) = false ->
         last (map Some (sn_in sn term)) None = Some a -> abs_const_set a = Some l -> In v l ->
         dest v = Some t -> inst_to_block p t = Some b' -> In b' (disc bid)).
    { intros d a l v t b' H1 H2 H3 H4 H5 H6 H7 H8. subst disc. rewrite H1, H2, H3, H4. cbn. rewrite upd_same.
      eapply discover_new; eauto. }
    assert (D4 : forall x, In x (disc bid) -> In x (fx_disc s bid) \/ exists bl' d', nth_error blocks x = Some bl' /\
      nth_error insts (bk_start bl') = Some d' /\ is_jumpdest d' = true).
    { intros x Hx. subst disc. destruct (nth_error insts term) as [d|] eqn:Hd; [|auto].
      destruct (is_jump d && negb (f_static (d_flags d))) eqn:Ej; [|auto]. destruct (last _ _) as [a|]; [|auto].
      rewrite upd_same in Hx. apply discover_inv in Hx as [Hx|(v & t & Hv & Ht)]; [auto|]. right.
      destruct (i2b_some _ _ _ _ _ p OK _ _ Ht) as (bl' & Hb' & Hr').
      destruct (in_block_live _ _ _ _ _ p OK _ _ _ Hb' Hr') as (dt & Hdt & _).
      pose proof (is_dest_jumpdest _ _ _ _ _ p OK t dt (DEST _ _ Hv) Hdt) as Jd.
      destruct (in_block_live _ _ _ _ _ p OK bid b term Eb) as (d1 & Hd1 & Hl & _); [subst term; unfold terminator; lia|].
      assert (d1 = d) by congruence. subst d1.
      assert (Dy : b_dyn p = true).
      { eapply (fr_dyn p (co_fresh _ _ _ _ _ _ OK)); [exact Hd|]. unfold unresolved. rewrite Ej, Hl. reflexivity. }
      assert (E : bk_start bl' = t).
      { eapply (jd_start _ _ _ _ _ p OK); eauto. unfold is_reachable_jumpdest. rewrite Jd, Dy. reflexivity. }
      exists bl', dt. rewrite E. auto. }
    clearbody disc.
    destruct (propagate env (bk_succs b ++ disc bid) stk (fx_states s) (fx_queue s)) as [states q] eqn:Ep.
    destruct (propagate_spec env KEY _ _ _ _ _ _ Ep) as (Q & P1 & P2 & P3).
    constructor; cbn.
    - destruct (fx_states s 0%nat) as [A|] eqn:E; [|congruence]. destruct (P1 _ _ E) as (A' & -> & _). discriminate.
    - intros b1 A0 bl Hs Hb. right.
      destruct (fx_states s b1) as [A|] eqn:E.
      2:{ left. apply (P3 b1 E). congruence. }
      destruct (P1 _ _ E) as (A' & E' & C' & [O'|O']); [|left; exact O'].
      assert (A0 = A) by congruence. subst A0 A'.
      destruct (Nat.eq_dec b1 bid) as [-> |Hne].
      + right. exists (fx_used s), true, stk. assert (bl = b) by congruence. subst bl. assert (A = stk0) by congruence. subst A.
        split; [exact Ran|]. intros _. cbn. split; [exact D3|]. exact P2.
      + destruct (ST b1 A bl E Hb) as [[X|[]]|[X|(u0 & ok & st1 & (s0 & s1 & v1 & Hrun & Ag) & S2)]]; [congruence|left; apply Q, X|right].
        exists u0, ok, st1. split.
        * exists s0, s1, v1. split; [exact Hrun|]. intros i Hi. eapply agree_trans; [apply (Other b1 bl i Hne Hb Hi)|apply Ag, Hi].
        * cbn. intros Ho. destruct (S2 Ho) as [S3 S4]. rewrite (D1 b1 Hne). split.
          -- intros d a l v t b' H1 H2 H3 H4. apply (S3 d a l v t b' H1 H2 H3).
             destruct (Other b1 bl (terminator bl) Hne Hb) as [X _]; [pose proof (bounds _ _ Hb); unfold terminator; lia|]. rewrite <- X. exact H4.
          -- intros b' Hb'. destruct (S4 b' Hb') as (A2 & EA & CA). destruct (P1 _ _ EA) as (A3 & EA3 & CA3 & _). eauto.
    - intros b1 bl i Hs Hb Hi. destruct (fx_states s b1) as [A|] eqn:E.
      + destruct (P1 _ _ E) as (A' & E' & _). congruence.
      + eapply agree_trans; [apply (Other b1 bl i); [congruence|exact Hb|exact Hi]|eapply BT; eauto].
    - exact FR'.
    - assert (Lift : forall b', In b' (fx_disc s bid) -> In b' (disc bid)) by exact D2.
      assert (K : forall b1, fx_states s b1 <> None -> states b1 <> None).
      { intros b1 Hb1. destruct (fx_states s b1) as [A|] eqn:E; [|congruence]. destruct (P1 _ _ E) as (A' & -> & _). discriminate. }
      intros b1 Hs. destruct (fx_states s b1) as [A|] eqn:E.
      + destruct (PD b1) as [X|(b' & bl' & X1 & X2 & X3)]; [congruence|left; exact X|right].
        exists b', bl'. split; [exact X1|]. split; [apply K, X2|].
        apply in_or_app. apply in_app_or in X3 as [X3|X3]; [left; exact X3|right].
        destruct (Nat.eq_dec b' bid) as [-> |Hne]; [apply D2, X3|rewrite D1 by exact Hne; exact X3].
      + right. exists bid, b. split; [exact Eb|]. split; [apply K; congruence|]. apply (P3 b1 E Hs).
    - intros b1 b' Hb'. destruct (Nat.eq_dec b1 bid) as [-> |Hne].
      + destruct (D4 b' Hb') as [X|X]; [eapply DC; eauto|exact X].
      + rewrite D1 in Hb' by exact Hne. eapply DC; eauto.
  Qed.

  Lemma fx_loop_inv fuel : forall s s' c, finv s [] -> fx_loop env p fuel s = (s', c) ->
    finv s' [] /\ (c = true -> fx_queue s' = []).
  Proof.
    induction fuel as [|f IH]; intros s s' c I H; cbn [fx_loop] in H; destruct (fx_queue s) as [|bid q] eqn:Q.
    - injection H as <- <-. auto.
    - injection H as <- <-. split; [exact I|discriminate].
    - injection H as <- <-. auto.
    - eapply IH; [|exact H]. apply fx_step_inv, finv_pop; assumption.
  Qed.
  Lemma run_fixpoint_inv s c : run_fixpoint env p = (s, c) -> finv s [] /\ (c = true -> fx_queue s = []).
  Proof.
    intros H. eapply fx_loop_inv; [|exact H]. constructor; cbn.
    - discriminate.
    - intros b A0 bl Hs Hb. right; left. left. destruct b; [reflexivity|discriminate].
    - intros b bl i _ _ _. split; reflexivity.
    - intros i d _. auto.
    - intros b Hb. left. destruct b; [reflexivity|]. exfalso. apply Hb. reflexivity.
    - intros b b' [].
  Qed.

  (** An unknown jump that is really taken. *)
  Definition top_at (sn : snaps) : Prop :=
    exists i st y d, R i st y /\ nth_error insts i = Some d /\ is_jump d = true /\ f_static (d_flags d) = false /\
      is_dead d = false /\ is_top (resolve_jump env insts sn i) = true /\
      (exists t, hd_error st = Some t) /\ (d_op d = OP_JUMPI -> exists t c s, st = t :: c :: s /\ c <> 0).

  (** ** Covered states. *)
  Section Conv.
    Variable s : fx.
    Hypothesis I : finv s [].
    Hypothesis CONV : fx_queue s = [].
    Hypothesis DEPTH : forall i st y, R i st y -> (length st <= 64)%nat.

    Definition cov (b : nat) (i : nat) (st : list Z) : Prop :=
      exists bl ste A0 u0 ok stk A u, nth_error blocks b = Some bl /\ fx_states s b = Some A0 /\ settled s b bl A0 u0 ok stk /\
        tracks bl ste A0 u0 i st A u /\ (length ste <= length A0)%nat.

    Lemma settled_all b A0 bl : fx_states s b = Some A0 -> nth_error blocks b = Some bl -> exists u0 ok stk, settled s b bl A0 u0 ok stk.
    Proof. intros Hs Hb. destruct (fi_set _ _ I b A0 bl Hs Hb) as [[]|[X|X]]; [rewrite CONV in X; destruct X|exact X]. Qed.

    Lemma cov_entry b bl A0 st y : nth_error blocks b = Some bl -> fx_states s b = Some A0 -> R (bk_start bl) st y ->
      prel A0 st -> (length st <= length A0)%nat -> cov b (bk_start bl) st.
    Proof.
      intros Hb Hs HR P L. destruct (settled_all _ _ _ Hs Hb) as (u0 & ok & stk & S).
      exists bl, st, A0, u0, ok, stk, A0, u0. split; [exact Hb|]. split; [exact Hs|]. split; [exact S|]. split; [|exact L].
      eapply tracks_start; eauto.
    Qed.
    Lemma cov_enough d (A : list aval) (ste A0 : list aval) (st st0 : list Z) :
      (length A + length st0 = length A0 + length st)%nat -> (length st0 <= length A0)%nat ->
      fst (d_io d) <= Z.of_nat (length st) -> fst (d_io d) <= Z.of_nat (length A).
    Proof. lia. Qed.

    Lemma cov_good b i st y d : cov b i st -> R i st y -> nth_error insts i = Some d -> good local -> good_at (fx_snaps s) i st y d.
    Proof.
      intros (bl & ste & A0 & u0 & ok & stk & A & u & Hb & Hs & (Ran & _) & T & L) HR Hn G.
      eapply (ran_good prog env sem y0 PO SO p OK); eauto.
      - apply (fi_frame _ _ I).
      - eapply (pr_live _ _ _ _ _ _ (co_pre _ _ _ _ _ _ OK)); eauto.
      - destruct T as (_ & _ & _ & TL). lia.
      - destruct (iof i d Hn) as (d0 & H0 & _). apply (G i st y d0 HR H0).
    Qed.

    (** The interpreter's stack at the end of the block. *)
    Lemma cov_exec b i st y j st' y' d : cov b i st -> R i st y -> nth_error insts i = Some d -> is_dead d = false ->
      step i st y = Some (j, st', y') ->
      exists bl ste A0 u0 ok stk A' u', nth_error blocks b = Some bl /\ fx_states s b = Some A0 /\ settled s b bl A0 u0 ok stk /\
        (bk_start bl <= i < bk_end bl)%nat /\
        (exists ye, R (bk_start bl) ste ye) /\
        astack env insts (seq (bk_start bl) (S i - bk_start bl)) A0 u0 = Some (A', u') /\ prel A' st' /\
        (length A' + length ste = length A0 + length st')%nat /\ (length ste <= length A0)%nat /\
        entered prog env sem y0 p bl ste i st.
    Proof.
      intros (bl & ste & A0 & u0 & ok & stk & A & u & Hb & Hs & S & T & L) HR Hn Hd Hst.
      destruct (iof i d Hn) as (d0 & H0 & SM).
      pose proof (step_exec prog env sem y0 p OK _ _ _ _ _ _ _ Hn Hst) as He.
      destruct (exec_len prog env sem PO SO _ _ _ _ _ _ _ _ H0 SM He) as (_ & _ & LI & _).
      assert (HI : fst (d_io d) <= Z.of_nat (length A)) by (destruct T as (_ & _ & _ & TL); lia).
      destruct (tracks_exec prog env sem y0 PO SO p OK _ _ _ _ _ _ _ _ _ _ _ _ _ T Hn Hd HR Hst HI) as (A' & u' & _ & Ha & HP & HL).
      destruct T as ((Hr & Hye & Hh) & _).
      exists bl, ste, A0, u0, ok, stk, A', u'. repeat (split; [assumption|]). first [exact Hh | lia].
    Qed.

    Lemma cov_in b bl i st y st' y' d : cov b i st -> R i st y -> nth_error insts i = Some d -> is_dead d = false ->
      step i st y = Some (S i, st', y') -> nth_error blocks b = Some bl -> (S i < bk_end bl)%nat -> cov b (S i) st'.
    Proof.
      intros C HR Hn Hd Hst Hb He.
      destruct (cov_exec _ _ _ _ _ _ _ _ C HR Hn Hd Hst) as (bl' & ste & A0 & u0 & ok & stk & A' & u' & Hb' & Hs & S & Hr & Hye & Ha & HP & HL & L & HE).
      assert (bl' = bl) by congruence. subst bl'.
      exists bl, ste, A0, u0, ok, stk, A', u'. repeat (split; [assumption|]). split; [|exact L].
      split; [eapply entered_next; eauto|]. auto.
    Qed.

    Lemma cov_edge b bl i st y j st' y' d b' bl' : cov b i st -> R i st y -> nth_error insts i = Some d -> is_dead d = false ->
      step i st y = Some (j, st', y') -> nth_error blocks b = Some bl -> S i = bk_end bl ->
      nth_error blocks b' = Some bl' -> bk_start bl' = j ->
      (In b' (bk_succs bl) \/
       exists a l v, is_jump d = true /\ f_static (d_flags d) = false /\
         last (map Some (sn_in (fx_snaps s) i)) None = Some a /\ abs_const_set a = Some l /\ In v l /\ dest v = Some j) ->
      cov b' j st'.
    Proof.
      intros C HR Hn Hd Hst Hb He Hb' Hj Hor.
      destruct (cov_exec _ _ _ _ _ _ _ _ C HR Hn Hd Hst) as (bl0 & ste & A0 & u0 & ok & stk & A' & u' & Hb0 & Hs & S & Hr & Hye & Ha & HP & HL & L & _).
      assert (bl0 = bl) by congruence. subst bl0.
      destruct S as [(sn0 & sn1 & u1 & Hrun & Ag) S].
      destruct (interp_block_run env insts _ _ _ _ _ _ _ _ (seq_NoDup _ _) Hrun) as (Hok & _).
      assert (EQ : seq (bk_start bl) (Datatypes.S i - bk_start bl) = blk_insts bl) by (unfold blk_insts; f_equal; lia).
      rewrite EQ in Ha. fold (blk_insts bl) in Hok. destruct ok; rewrite Ha in Hok; [|discriminate]. injection Hok as <- <-.
      destruct (S eq_refl) as [S1 S2].
      assert (Tm : terminator bl = i) by (unfold terminator; lia).
      assert (In b' (bk_succs bl ++ fx_disc s b)).
      { apply in_or_app. destruct Hor as [X|(a & l & v & X1 & X2 & X3 & X4 & X5 & X6)]; [left; exact X|right].
        eapply S1; try rewrite Tm; eauto. eapply (i2b_in _ _ _ _ _ p OK); [exact Hb'|].
        pose proof (bounds _ _ Hb'). lia. }
      destruct (S2 b' H) as (A2 & HA2 & (C1 & C2)).
      pose proof (reach_step _ _ _ _ _ _ _ _ _ _ _ HR Hst) as HR'.
      rewrite <- Hj. eapply cov_entry; eauto; [rewrite Hj; exact HR'|].
      pose proof (DEPTH _ _ _ HR'). lia.
    Qed.

    Lemma inst_exists i st y j st' y' : step i st y = Some (j, st', y') -> exists d, nth_error insts i = Some d.
    Proof.
      intros Hs. unfold evm_step in Hs. destruct (nth_error prog i) as [d0|] eqn:E0; [|discriminate].
      destruct SK as [L _]. apply nth_some. apply nth_lt in E0. congruence.
    Qed.

    Lemma cov_zero d : nth_error insts 0 = Some d -> cov 0 0 [].
    Proof.
      intros Hn. destruct (block_zero _ _ _ _ _ p OK _ Hn) as (bl & Hb & E).
      destruct (fx_states s 0%nat) as [A0|] eqn:Hs; [|exfalso; eapply (fi_zero _ _ I); eauto].
      rewrite <- E at 2. eapply (cov_entry _ bl A0 [] y0); eauto; [rewrite E; constructor|intros [|k] a v _ X; discriminate|cbn; lia].
    Qed.

    (** Every reached state is covered, unless an unknown jump was taken. *)
    Lemma cov_or_top : good local -> forall i st y d, R i st y -> nth_error insts i = Some d -> (exists b, cov b i st) \/ top_at (fx_snaps s).
    Proof.
      intros GL i st y d HR. revert d. induction HR as [|i st y j st' y' HR IH Hs]; intros dj Hj.
      - left. exists 0%nat. eapply cov_zero; eauto.
      - destruct (inst_exists _ _ _ _ _ _ Hs) as [d Hn].
        destruct (IH d Hn) as [[b C]|T]; [|right; exact T].
        pose proof C as (bl & ste & A0 & u0 & ok & stk & A & u & Hb & _ & _ & ((Hr & _) & _) & _).
        destruct (step_block _ _ _ _ _ DEST p OK _ _ _ _ _ _ _ _ _ HR Hs Hb Hr Hj) as (d1 & Hd1 & Hd & Hc).
        assert (d1 = d) by congruence. subst d1.
        destruct Hc as [(He & -> & _)|(He & b' & bl' & Hb' & Es & [[-> Hin]|(Jd & Hjmp & Hst & Hcnd & v & Hv & Hdv)])].
        + left. exists b. eapply cov_in; eauto.
        + left. exists b'. eapply cov_edge; eauto.
        + destruct (f_static (d_flags d)) eqn:Fs; [left; exists b'; eapply cov_edge; eauto|].
          destruct (cov_good _ _ _ _ _ C HR Hn GL) as [[P _] LN].
          destruct st as [|t st1]; [discriminate|]. injection Hv as ->.
          (* the operand on top of the snapshot *)
          assert (GJ : jump_snap (fx_snaps s) i d (v :: st1)).
          { eapply good_jump; eauto. split; [split|]; [exact P| |exact LN]. destruct (cov_good _ _ _ _ _ C HR Hn GL) as [[_ X] _]; exact X. }
          destruct (rev (sn_in (fx_snaps s) i)) as [|a sl] eqn:Er.
          { exfalso. destruct GJ as [_ GL2]. pose proof (jump_io_p prog env sem y0 PO p OK i d Hn Hjmp) as Io.
            assert (X : length (rev (sn_in (fx_snaps s) i)) = 0%nat) by (rewrite Er; reflexivity). rewrite rev_length in X.
            rewrite X, Io in GL2. destruct (d_op d =? OP_JUMP) eqn:EJ; cbn [fst] in GL2.
            - specialize (GL2 ltac:(cbn; lia)). cbn in GL2. lia.
            - destruct Hcnd as (t0 & c0 & s0 & E0 & _); [unfold is_jump in Hjmp; lia|]. rewrite E0 in GL2.
              specialize (GL2 ltac:(cbn; lia)). cbn in GL2. lia. }
          assert (Ga : gamma a v) by (apply (P 0%nat a v); reflexivity).
          assert (La : last (map Some (sn_in (fx_snaps s) i)) None = Some a) by (rewrite last_rev, Er; reflexivity).
          destruct (abs_const_set a) as [l|] eqn:El.
          * left. exists b'. eapply cov_edge; eauto. right. exists a, l, v. repeat (split; [assumption|]).
            split; [|exact Hdv]. eapply abs_set_gamma; eauto.
          * right. exists i, (v :: st1), y, d. split; [exact HR|]. split; [exact Hn|]. split; [exact Hjmp|]. split; [exact Fs|]. split; [exact Hd|].
            split; [|split; [exists v; reflexivity|exact Hcnd]].
            destruct (resolve_ok env insts (fx_snaps s) i d (v :: st1) Hn Hjmp (jump_io_p prog env sem y0 PO p OK i d Hn Hjmp) GJ) as [CO _].
            assert (NF : j_cond (resolve_jump env insts (fx_snaps s) i) <> CAlwaysFalse).
            { intros X. assert (OI : d_op d = OP_JUMPI).
              { destruct (resolve_shape prog env PO insts (fx_snaps s) i d Hn) as (_ & _ & K). apply K. rewrite X. reflexivity. }
              destruct (Hcnd OI) as (t0 & c0 & s0 & E0 & Hc0). destruct (CO OI _ _ _ E0) as [_ Z]. apply Hc0, Z, X. }
            assert (a = ATop) by (destruct a; [discriminate|discriminate|reflexivity]). subst a.
            unfold resolve_jump in *. rewrite Hn in *. rewrite La in *.
            destruct (if d_op d =? OP_JUMPI then _ else _); cbn in *; [reflexivity|reflexivity|congruence].
    Qed.

    (** Blocks that are not suspect are covered even if unknown jumps exist. *)
    Lemma cov_nonsus sus : suspects p (fx_states s) (fx_disc s) = Some sus ->
      forall i st y d b bl, R i st y -> nth_error insts i = Some d -> nth_error blocks b = Some bl -> (bk_start bl <= i < bk_end bl)%nat ->
      fx_states s b <> None -> sus b = false -> cov b i st.
    Proof.
      intros Hsus i st y d b bl HR. destruct (suspects_spec p (fx_disc s) _ _ Hsus) as [Seed Clo].
      revert d b bl. induction HR as [|i st y j st' y' HR IH Hs]; intros dj b' bl' Hj Hb' Hr' Hk Hns.
      - destruct (block_zero _ _ _ _ _ p OK _ Hj) as (bl0 & Hb0 & E0).
        destruct (block_unique _ _ _ _ _ p OK _ _ _ _ 0%nat Hb0 Hb') as [<- _]; [pose proof (bounds _ _ Hb0); lia|exact Hr'|].
        eapply cov_zero; eauto.
      - destruct (inst_exists _ _ _ _ _ _ Hs) as [d Hn].
        destruct (reach_block _ _ _ _ _ p OK _ _ _ _ HR Hn) as (b & bl & Hb & Hr).
        destruct (step_block _ _ _ _ _ DEST p OK _ _ _ _ _ _ _ _ _ HR Hs Hb Hr Hj) as (d1 & Hd1 & Hd & Hc).
        assert (d1 = d) by congruence. subst d1.
        assert (NJ : bk_start bl' = j -> is_jumpdest dj = false).
        { intros E. destruct (is_jumpdest dj) eqn:EJ; [|reflexivity]. rewrite Seed in Hns; [discriminate|].
          unfold seed_suspect. destruct (fx_states s b'); [|congruence]. rewrite Hb', E, Hj. exact EJ. }
        destruct Hc as [(He & -> & _)|(He & b2 & bl2 & Hb2 & Es & Hc)].
        + destruct (block_unique _ _ _ _ _ p OK _ _ _ _ (Datatypes.S i) Hb Hb') as [<- <-]; [lia|exact Hr'|].
          eapply cov_in; eauto.
        + assert (b2 = b' /\ bl2 = bl') as [-> ->].
          { eapply (block_unique _ _ _ _ _ p OK _ _ _ _ j Hb2 Hb'); [pose proof (bounds _ _ Hb2); lia|exact Hr']. }
          specialize (NJ Es).
          destruct Hc as [[-> Hin]|(Jd & _)]; [|congruence].
          (* only the preceding block leads here *)
          assert (Hk0 : fx_states s b <> None).
          { destruct (fi_pred _ _ I b' Hk) as [-> |(b3 & bl3 & Hb3 & Hk3 & Hin3)].
            - exfalso. destruct (nth_some insts 0) as [d0 H0]; [apply nth_lt in Hj; lia|].
              destruct (block_zero _ _ _ _ _ p OK _ H0) as (bl0 & Hb0 & E0). assert (bl0 = bl') by congruence. subst bl0. lia.
            - apply in_app_or in Hin3 as [Hin3|Hin3].
              + destruct (succ_start _ _ _ _ _ p OK _ _ _ Hb3 Hin3) as (bl4 & Hb4 & [E4|(d4 & Hd4 & J4)]).
                * assert (bl4 = bl') by congruence. subst bl4.
                  destruct (block_unique _ _ _ _ _ p OK _ _ _ _ i Hb Hb3) as [-> _]; [exact Hr| |exact Hk3].
                  pose proof (bounds _ _ Hb3). lia.
                * assert (bl4 = bl') by congruence. subst bl4. rewrite Es in Hd4. congruence.
              + destruct (fi_disc _ _ I _ _ Hin3) as (bl4 & d4 & Hb4 & Hd4 & J4). assert (bl4 = bl') by congruence. subst bl4.
                rewrite Es in Hd4. congruence. }
          assert (Hns0 : sus b = false).
          { destruct (sus b) eqn:E; [|reflexivity]. rewrite (Clo b b' E) in Hns; [discriminate|].
            unfold edges. rewrite Hb. apply in_or_app. left. exact Hin. }
          eapply cov_edge; eauto.
    Qed.
  End Conv.

  (** ** Snapshots and resolutions after invalidation. *)
  Definition goodp (sn : snaps) : Prop := forall i st y d, R i st y -> nth_error insts i = Some d -> good_at sn i st y d.
  Lemma goodp_good sn : goodp sn -> good sn.
  Proof.
    intros G i st y d0 HR H0. destruct SK as [SL SS]. destruct (nth_some insts i) as [d Hn]; [apply nth_lt in H0; congruence|].
    destruct (SS i d0 d H0 Hn) as (_ & E2 & _). destruct (G i st y d HR Hn) as [G1 G2]. split; [exact G1|]. rewrite <- E2. exact G2.
  Qed.
  Lemma good_goodp sn : good sn -> goodp sn.
  Proof. intros G i st y d HR Hn. eapply good_p; eauto. Qed.

  Lemma local_cond_ok i st y d t c st2 : good_at local i st y d -> nth_error insts i = Some d -> d_op d = OP_JUMPI -> st = t :: c :: st2 ->
    (local_jumpi_condition insts local i = CAlwaysTrue -> c <> 0) /\ (local_jumpi_condition insts local i = CAlwaysFalse -> c = 0).
  Proof.
    intros G Hn Ho ->. unfold local_jumpi_condition. rewrite Hn, Ho. cbn [Z.eqb]. change (OP_JUMPI =? OP_JUMPI) with true. cbn match.
    assert (Hj : is_jump d = true) by (unfold is_jump; rewrite Ho; reflexivity).
    destruct (good_jump prog env sem y0 PO p OK _ _ _ _ _ G Hn Hj) as [P L].
    rewrite (jump_io_p prog env sem y0 PO p OK i d Hn Hj), Ho in L. cbn in L. specialize (L ltac:(lia)).
    destruct (sn_in local i) as [|a0 [|a1 [|a2 sl]]] eqn:Es; try discriminate L.
    cbn [rev app] in P. pose proof (P 1%nat a0 c eq_refl eq_refl) as Ga.
    destruct a0 as [v| |]; [|split; discriminate|split; discriminate]. cbn in Ga. subst v.
    destruct (c =? 0) eqn:E; split; try discriminate; intros _; lia.
  Qed.

  Lemma weaken_shape i d r : nth_error insts i = Some d -> shape prog i d r -> shape prog i d (weaken insts local i r).
  Proof.
    intros Hn (S1 & S2 & S3).
    assert (K : cond_known (local_jumpi_condition insts local i) = true -> d_op d = OP_JUMPI).
    { unfold local_jumpi_condition. rewrite Hn. destruct (d_op d =? OP_JUMPI) eqn:E; [intros _; lia|discriminate]. }
    unfold weaken. destruct (local_jumpi_condition insts local i) eqn:Ec.
    - destruct (is_resolved r) eqn:Er; (split; [discriminate|]); (split; [|exact K]); cbn; [intros ts E; discriminate|].
      intros ts E. unfold is_resolved in Er. rewrite E in Er. discriminate.
    - destruct (is_resolved r) eqn:Er; (split; [discriminate|]); (split; [|exact K]); cbn; [intros ts E; discriminate|].
      intros ts E. unfold is_resolved in Er. rewrite E in Er. discriminate.
    - split; [reflexivity|]. split; [|exact K]. cbn. intros ts E. left. congruence.
  Qed.

  Lemma weaken_ok bot i st y d r : good_at local i st y d -> nth_error insts i = Some d -> is_jump d = true ->
    (is_resolved r = true \/ tgt_ok env bot r d st) ->
    cond_ok (weaken insts local i r) d st /\ tgt_ok env bot (weaken insts local i r) d st.
  Proof.
    intros G Hn Hj HT.
    assert (C : cond_ok (weaken insts local i r) d st).
    { intros Ho t c st2 E. destruct (local_cond_ok i st y d t c st2 G Hn Ho E) as [L1 L2].
      unfold weaken. destruct (local_jumpi_condition insts local i); [destruct (is_resolved r)|destruct (is_resolved r)|]; cbn; split; try discriminate; auto. }
    split; [exact C|]. intros t st1 E T. unfold weaken in *.
    destruct (local_jumpi_condition insts local i) eqn:Ec.
    - destruct (is_resolved r) eqn:Er; cbn; [exact Logic.I|]. destruct HT as [HT|HT]; [congruence|]. exact (HT t st1 E T).
    - destruct (is_resolved r) eqn:Er; cbn; [exact Logic.I|]. destruct HT as [HT|HT]; [congruence|]. exact (HT t st1 E T).
    - cbn. exfalso. assert (Ho : d_op d = OP_JUMPI).
      { unfold local_jumpi_condition in Ec. rewrite Hn in Ec. destruct (d_op d =? OP_JUMPI) eqn:E1; [lia|discriminate]. }
      destruct (T Ho) as (c & st2 & -> & Hc). destruct (C Ho _ _ _ E) as [_ X]. apply Hc, X. reflexivity.
  Qed.

  Lemma restore_fold sus : forall l sn i,
    agree (fold_left (fun s b => if (sus b : bool) then match nth_error blocks b with
                                                | Some bl => restore_from s (blk_insts bl) local
                                                | None => s end else s) l sn)
          (if existsb (fun b => sus b && match nth_error blocks b with Some bl => existsb (Nat.eqb i) (blk_insts bl) | None => false end) l
           then local else sn) i.
  Proof.
    induction l as [|b l IH]; intros sn i; cbn [fold_left existsb]; [split; reflexivity|].
    eapply agree_trans; [apply IH|].
    match goal with |- context [existsb ?f l] => destruct (existsb f l) end.
    - rewrite orb_true_r. split; reflexivity.
    - rewrite orb_false_r. destruct (sus b); cbn [andb]; [|split; reflexivity].
      destruct (nth_error blocks b); [apply restore_from_spec|split; reflexivity].
  Qed.

  Definition at_block (i b : nat) : Prop := exists bl, nth_error blocks b = Some bl /\ (bk_start bl <= i < bk_end bl)%nat.

  Lemma finish states disc sn rs' sn' :
    good local ->
    (forall sus i st y d b, suspects p states disc = Some sus -> R i st y -> nth_error insts i = Some d -> at_block i b -> sus b = false -> good_at sn i st y d) ->
    (forall i st y d, R i st y -> nth_error insts i = Some d -> good_at sn i st y d \/ top_at sn) ->
    invalidate p states disc local (map (fun i => (i, resolve_jump env insts sn i)) (jump_insts insts)) sn = Some (rs', sn') ->
    good sn' /\ map fst rs' = jump_insts insts /\
    forall i r, In (i, r) rs' -> res_good (negb (existsb (fun ir => is_top (snd ir)) rs')) p i r.
  Proof.
    intros GL H1 H2 Hinv. unfold invalidate in Hinv. destruct (suspects p states disc) as [sus|] eqn:Es; [|discriminate].
    apply (f_equal (fun o => match o with Some x => x | None => (rs', sn') end)) in Hinv. cbn match in Hinv.
    apply pair_equal_spec in Hinv as [Hrs Hsn]. specialize (H1 sus).
    set (sus_inst := fun i => match inst_to_block p i with Some b => sus b | None => false end) in *.
    assert (SI : forall i b, at_block i b -> sus_inst i = sus b).
    { intros i b (bl & Hb & Hr). unfold sus_inst. rewrite (i2b_in _ _ _ _ _ p OK _ _ _ Hb Hr). reflexivity. }
    assert (AB : forall i st y d, R i st y -> nth_error insts i = Some d -> exists b, at_block i b).
    { intros i st y d HR Hn. destruct (reach_block _ _ _ _ _ p OK _ _ _ _ HR Hn) as (b & bl & Hb & Hr). exists b, bl. auto. }
    split.
    { apply goodp_good. intros i st y d HR Hn. destruct (AB i st y d HR Hn) as [b Hab].
      assert (Ag : agree sn' (if sus b then local else sn) i).
      { rewrite <- Hsn. eapply agree_trans; [apply restore_fold|].
        match goal with |- context [existsb ?f ?l] => assert (E : existsb f l = sus b) end; [|rewrite E; split; reflexivity].
        destruct Hab as (bl & Hb & Hr). apply Bool.eq_iff_eq_true. rewrite existsb_exists. split.
        - intros (b1 & _ & Hb1). apply andb_true_iff in Hb1 as [Hs Hb1]. destruct (nth_error blocks b1) as [bl1|] eqn:Eb1; [|discriminate].
          apply existsb_exists in Hb1 as (k & Hk & Ek). apply Nat.eqb_eq in Ek. subst k. apply in_seq in Hk.
          destruct (block_unique _ _ _ _ _ p OK _ _ _ _ i Hb Eb1 Hr) as [<- _]; [lia|exact Hs].
        - intros Hs. exists b. split; [apply in_seq; apply nth_lt in Hb; lia|]. rewrite Hs, Hb. cbn [andb]. apply existsb_exists. exists i.
          split; [apply in_seq; lia|apply Nat.eqb_refl]. }
      destruct (sus b) eqn:Esb; (eapply good_at_agree; [apply agree_sym, Ag|]); [eapply good_p; eauto|eapply H1; eauto]. }
    split.
    { rewrite <- Hrs. rewrite !map_map. cbn [fst]. apply map_id. }
    assert (TOP : top_at sn -> existsb (fun ir => is_top (snd ir)) rs' = true).
    { intros (i & st & y & d & HR & Hn & Hj & Hst & Hdd & Ht & Hhd & Htk). apply existsb_exists.
      exists (i, if sus_inst i then weaken insts local i (resolve_jump env insts sn i) else resolve_jump env insts sn i).
      split.
      - rewrite <- Hrs, map_map. apply in_map_iff. exists i. split; [reflexivity|]. unfold jump_insts. apply filter_In.
        split; [apply in_seq; apply nth_lt in Hn; lia|]. rewrite Hn. unfold wants_resolution. rewrite Hj, Hst. reflexivity.
      - cbn [snd]. destruct (sus_inst i); [|exact Ht]. unfold weaken.
        assert (NR : is_resolved (resolve_jump env insts sn i) = false).
        { unfold is_top, is_resolved in *. destruct (j_target (resolve_jump env insts sn i)); congruence. }
        rewrite NR. destruct (local_jumpi_condition insts local i) eqn:Ec; [exact Ht|exact Ht|]. exfalso.
        assert (Ho : d_op d = OP_JUMPI).
        { unfold local_jumpi_condition in Ec. rewrite Hn in Ec. destruct (d_op d =? OP_JUMPI) eqn:E1; [lia|discriminate]. }
        destruct (Htk Ho) as (t & c & s & -> & Hc).
        destruct (local_cond_ok i (t :: c :: s) y d t c s (good_p prog env sem y0 p OK _ _ _ _ _ GL HR Hn) Hn Ho eq_refl) as [_ X]. auto. }
    intros i r Hin. set (top' := existsb (fun ir => is_top (snd ir)) rs') in *.
    rewrite <- Hrs, map_map in Hin. apply in_map_iff in Hin as (i1 & Ei & Hin). apply pair_equal_spec in Ei as [-> Er].
    unfold jump_insts in Hin. apply filter_In in Hin as [_ Hw]. destruct (nth_error insts i) as [d|] eqn:Hn; [|discriminate].
    unfold wants_resolution in Hw. apply andb_true_iff in Hw as [Hj _].
    exists d. split; [exact Hn|]. split; [exact Hj|].
    pose proof (resolve_shape prog env PO insts sn i d Hn) as SH.
    change ((if sus_inst i then weaken insts local i (resolve_jump env insts sn i) else resolve_jump env insts sn i) = r) in Er.
    destruct (sus_inst i) eqn:Esi.
    - split; [rewrite <- Er; apply weaken_shape; assumption|]. intros st y HR. rewrite <- Er.
      eapply weaken_ok; [exact (good_p prog env sem y0 p OK _ _ _ _ _ GL HR Hn)|exact Hn|exact Hj|].
      destruct (H2 i st y d HR Hn) as [G|T].
      + right. apply tgt_ok_any. apply (good_resolve prog env sem y0 PO p OK sn i st y d G Hn Hj).
      + destruct (is_resolved (resolve_jump env insts sn i)) eqn:Eres; [left; reflexivity|right].
        rewrite (TOP T). intros t st1 E Tk. unfold is_resolved in Eres.
        destruct (j_target (resolve_jump env insts sn i)); try discriminate; [reflexivity|exact Logic.I].
    - split; [rewrite <- Er; exact SH|]. intros st y HR. rewrite <- Er.
      destruct (AB i st y d HR Hn) as [b Hab]. rewrite (SI i b Hab) in Esi.
      pose proof (H1 i st y d b eq_refl HR Hn Hab Esi) as G.
      destruct (good_resolve prog env sem y0 PO p OK sn i st y d G Hn Hj) as [C T]. split; [exact C|apply tgt_ok_any, T].
  Qed.

  Lemma top_in_rs sn : top_at sn -> existsb (fun ir : nat * jres => is_top (snd ir)) (map (fun i => (i, resolve_jump env insts sn i)) (jump_insts insts)) = true.
  Proof.
    intros (i & st & y & d & HR & Hn & Hj & Hst & Hdd & Ht & Hhd & Htk). apply existsb_exists.
    exists (i, resolve_jump env insts sn i). split; [|exact Ht]. apply in_map_iff. exists i. split; [reflexivity|].
    unfold jump_insts. apply filter_In. split; [apply in_seq; apply nth_lt in Hn; lia|]. rewrite Hn. unfold wants_resolution. rewrite Hj, Hst. reflexivity.
  Qed.

  (** ** Totality. *)
  Lemma fix_range s : finv s [] -> forall b c, In c (edges p (fx_disc s) b) -> (c < length blocks)%nat.
  Proof.
    intros I b c Hin. unfold edges in Hin. apply in_app_or in Hin as [Hin|Hin].
    - destruct (nth_error blocks b) as [bl|] eqn:Hb; [|destruct Hin].
      destruct (succ_start _ _ _ _ _ p OK _ _ _ Hb Hin) as (bl' & Hb' & _). eapply nth_lt; eauto.
    - destruct (fi_disc _ _ I _ _ Hin) as (bl' & d & Hb' & _). eapply nth_lt; eauto.
  Qed.
  Lemma block_analysis_total : block_analysis env p local <> None.
  Proof.
    assert (A : run_abstract_interp env p local <> None).
    { unfold run_abstract_interp. destruct (run_fixpoint env p) as [s conv] eqn:Ef.
      destruct (run_fixpoint_inv s conv Ef) as [I _].
      destruct (_ || _); [|discriminate]. unfold invalidate.
      pose proof (suspects_total p (fx_disc s) (fix_range s I) (fx_states s)) as T.
      destruct (suspects p (fx_states s) (fx_disc s)); [discriminate|congruence]. }
    unfold block_analysis. destruct (run_abstract_interp env p local) as [[[rs sn] used]|]; [|congruence].
    assert (RD : b_redirects (with_snaps p sn used) = []) by exact (pr_redir _ _ _ _ _ _ (co_pre _ _ _ _ _ _ OK)).
    destruct (_ || _); [|discriminate].
    pose proof (commit_resolved_total rs _ RD). destruct (commit_resolved rs (with_snaps p sn used)); [discriminate|congruence].
  Qed.

  (** If the fixpoint converged, stacks fit the abstract ones. *)
  Hypothesis DEPTH : snd (run_fixpoint env p) = true -> forall i st y, R i st y -> (length st <= 64)%nat.

  Lemma interp_ok rs sn u : good local -> run_abstract_interp env p local = Some (rs, sn, u) ->
    good sn /\ map fst rs = jump_insts insts /\
    forall i r, In (i, r) rs -> res_good (negb (existsb (fun ir => is_top (snd ir)) rs)) p i r.
  Proof.
    intros GL H. unfold run_abstract_interp in H. destruct (run_fixpoint env p) as [s conv] eqn:Ef.
    destruct (run_fixpoint_inv s conv Ef) as [I Q].
    assert (FA : forall i st y d, R i st y -> nth_error insts i = Some d ->
      agree (restore_from (fx_snaps s) (seq 0 (length insts)) local) local i).
    { intros i st y d _ Hn. eapply agree_trans; [apply restore_from_spec|].
      assert (E : existsb (Nat.eqb i) (seq 0 (length insts)) = true).
      { apply existsb_exists. exists i. split; [apply in_seq; apply nth_lt in Hn; lia|apply Nat.eqb_refl]. }
      rewrite E. split; reflexivity. }
    destruct conv.
    - specialize (Q eq_refl). pose proof DEPTH as DEPTH0. rewrite ?Ef in DEPTH0. specialize (DEPTH0 eq_refl).
      assert (CT : forall i st y d, R i st y -> nth_error insts i = Some d -> good_at (fx_snaps s) i st y d \/ top_at (fx_snaps s)).
      { intros i st y d HR Hn. destruct (cov_or_top s I Q DEPTH0 GL i st y d HR Hn) as [[b C]|T]; [left|right; exact T].
        eapply cov_good; eauto. }
      destruct (existsb (fun ir : nat * jres => is_top (snd ir)) (map (fun i => (i, resolve_jump env insts (fx_snaps s) i)) (jump_insts insts))) eqn:Et.
      + cbn [orb] in H.
        destruct (invalidate p (fx_states s) (fx_disc s) local _ (fx_snaps s)) as [[rs1 sn1]|] eqn:Ei; [|discriminate].
        injection H as <- <- _. eapply finish; [exact GL| |exact CT|exact Ei].
        intros sus i st y d b Hsus HR Hn (bl & Hb & Hr) Hns.
        destruct (fx_states s b) as [A|] eqn:Eb.
        * eapply cov_good; eauto. eapply cov_nonsus; eauto. congruence.
        * eapply good_at_agree; [apply agree_sym; eapply (fi_bot _ _ I); eauto|]. eapply good_p; eauto.
      + cbn [orb negb] in H. injection H as <- <- _.
        assert (NT : ~ top_at (fx_snaps s)) by (intros T; apply top_in_rs in T; congruence).
        assert (G : goodp (fx_snaps s)) by (intros i st y d HR Hn; destruct (CT i st y d HR Hn); [assumption|contradiction]).
        split; [apply goodp_good, G|]. split; [rewrite map_map; apply map_id|].
        intros i r Hin. apply in_map_iff in Hin as (i1 & Ei & Hin). apply pair_equal_spec in Ei as [-> Er].
        unfold jump_insts in Hin. apply filter_In in Hin as [_ Hw]. destruct (nth_error insts i) as [d|] eqn:Hn; [|discriminate].
        unfold wants_resolution in Hw. apply andb_true_iff in Hw as [Hj _].
        exists d. split; [exact Hn|]. split; [exact Hj|]. rewrite <- Er. split; [apply (resolve_shape prog env PO), Hn|].
        intros st y HR. destruct (good_resolve prog env sem y0 PO p OK _ i st y d (G i st y d HR Hn) Hn Hj) as [C T]. split; [exact C|apply tgt_ok_any, T].
    - rewrite orb_true_r in H.
      set (sn0 := restore_from (fx_snaps s) (seq 0 (length insts)) local) in *. clearbody sn0.
      destruct (invalidate p (fx_states s) (fx_disc s) local _ sn0) as [[rs1 sn1]|] eqn:Ei; [|discriminate].
      injection H as <- <- _.
      assert (G : goodp sn0).
      { intros i st y d HR Hn. eapply good_at_agree; [apply agree_sym; eapply FA; eauto|]. eapply good_p; eauto. }
      eapply finish; [exact GL| | |exact Ei]; eauto.
  Qed.

  Lemma jump_insts_nodup l : NoDup (jump_insts l).
  Proof. unfold jump_insts. apply NoDup_filter, seq_NoDup. Qed.

  (** The global analysis keeps every invariant. *)
  Theorem block_analysis_ok p' : good local -> block_analysis env p local = Some p' -> pre p' /\ good (b_snaps p').
  Proof.
    intros GL H. unfold block_analysis in H. destruct (run_abstract_interp env p local) as [[[rs sn] used]|] eqn:Er; [|discriminate].
    destruct (interp_ok rs sn used GL Er) as (G & Hrs & Hg).
    destruct (existsb _ rs || existsb _ rs).
    - destruct (commit_resolved rs (with_snaps p sn used)) as [p1|] eqn:Ec; [|discriminate]. injection H as <-.
      destruct (commit_resolved_pre prog env sem y0 rs (with_snaps p sn used) p1) as (P1 & P2 & P3).
      + rewrite Hrs. apply jump_insts_nodup.
      + eapply pre_ext; [..|exact (co_pre _ _ _ _ _ _ OK)]; reflexivity.
      + intros i r Hin. destruct (Hg i r Hin) as (d & X). exists d. exact X.
      + exact Ec.
      + split; [|cbn; rewrite P2; exact G]. eapply pre_ext; [..|exact P1]; reflexivity.
    - injection H as <-. split; [|exact G]. eapply pre_ext; [..|exact (co_pre _ _ _ _ _ _ OK)]; reflexivity.
  Qed.
End Fx.

(** ** Iterations. *)
Inductive fx_iter (env : aenv) (p : bc) : nat -> fx -> fx -> Prop :=
| fxi_0 s : fx_iter env p 0 s s
| fxi_S n s bid q s' : fx_queue s = bid :: q ->
    fx_iter env p n (fx_step env p bid (mkFx (fx_states s) q (fx_disc s) (fx_snaps s) (fx_used s))) s' ->
    fx_iter env p (S n) s s'.
Lemma fx_loop_iter env p fuel : forall s s' c, fx_loop env p fuel s = (s', c) ->
  exists n, fx_iter env p n s s' /\ (n <= fuel)%nat /\ (if c then fx_queue s' = [] else n = fuel /\ fx_queue s' <> []).
Proof.
  induction fuel as [|f IH]; intros s s' c H; cbn [fx_loop] in H.
  - exists 0%nat. destruct (fx_queue s) eqn:Eq; injection H as <- <-; (split; [constructor|]); (split; [lia|]); [exact Eq|].
    split; [reflexivity|congruence].
  - destruct (fx_queue s) as [|bid q] eqn:Eq.
    + injection H as <- <-. exists 0%nat. split; [constructor|]. split; [lia|exact Eq].
    + destruct (IH _ _ _ H) as (n & H1 & H2 & H3). exists (S n). split; [econstructor; eauto|]. split; [lia|].
      destruct c; [exact H3|]. destruct H3 as [-> H3]. auto.
Qed.
