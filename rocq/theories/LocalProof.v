(** Runs of the abstract interpreter over a block, and soundness of the block-local analysis. *)
From Verif Require Import BlockModel FlowSpec CfgProof ArithSpec BlockProof.
From Coq Require Import ZifyBool.
Open Scope Z_scope.

(** ** The abstract stack without the snapshots. *)
Section Run.
  Context (env : aenv) (insts : list idata).
  Fixpoint astack (idx : list nat) (A : list aval) (u : Z) : option (list aval * Z) :=
    match idx with
    | [] => Some (A, u)
    | i :: idx' =>
        match nth_error insts i with
        | None => None
        | Some d => if is_dead d then astack idx' A u
                    else match interp_inst env i d A u with
                         | (Some A', u') => astack idx' A' u'
                         | (None, _) => None
                         end
        end
    end.
  Lemma astack_app l1 l2 A u : astack (l1 ++ l2) A u =
    match astack l1 A u with Some (A1, u1) => astack l2 A1 u1 | None => None end.
  Proof.
    revert A u. induction l1 as [|i l1 IH]; intros A u; cbn [astack app]; [reflexivity|].
    destruct (nth_error insts i) as [d|]; [|reflexivity]. destruct (is_dead d); [apply IH|].
    destruct (interp_inst env i d A u) as [[A'|] u']; [apply IH|reflexivity].
  Qed.
  Lemma astack_snoc l i d A u : nth_error insts i = Some d -> is_dead d = false ->
    astack (l ++ [i]) A u =
    match astack l A u with
    | Some (A1, u1) => match interp_inst env i d A1 u1 with (Some A', u') => Some (A', u') | (None, _) => None end
    | None => None
    end.
  Proof.
    intros Hn Hd. rewrite astack_app. destruct (astack l A u) as [[A1 u1]|]; [|reflexivity]. cbn. rewrite Hn, Hd.
    destruct (interp_inst env i d A1 u1) as [[A'|] u']; reflexivity.
  Qed.

  Definition records_out (d : idata) : bool := (0 <? snd (d_io d)) && negb (is_swap (d_op d)).

  Lemma interp_block_run : forall idx A sn u ok stk sn' u', NoDup idx ->
    interp_block env insts idx A sn u = (ok, stk, sn', u') ->
    (if ok then astack idx A u = Some (stk, u') else astack idx A u = None) /\
    (forall i, ~ In i idx -> sn_in sn' i = sn_in sn i /\ sn_out sn' i = sn_out sn i) /\
    (forall i d, nth_error insts i = Some d ->
       (Z.to_nat (fst (d_io d)) = 0%nat -> sn_in sn' i = sn_in sn i) /\ (records_out d = false -> sn_out sn' i = sn_out sn i)) /\
    (forall l1 i l2 d A1 u1, idx = l1 ++ i :: l2 -> nth_error insts i = Some d -> is_dead d = false -> astack l1 A u = Some (A1, u1) ->
       ((0 < Z.to_nat (fst (d_io d)))%nat -> sn_in sn' i = rev (firstn (Z.to_nat (fst (d_io d))) A1)) /\
       (forall A2 u2, interp_inst env i d A1 u1 = (Some A2, u2) -> records_out d = true -> sn_out sn' i = hd_error A2)).
  Proof.
    induction idx as [|i idx IH]; intros A sn u ok stk sn' u' ND H.
    - cbn in H. injection H as <- <- <- <-. cbn. split; [reflexivity|]. split; [auto|]. split; [auto|].
      intros l1 i l2 d A1 u1 E. destruct l1; discriminate.
    - inversion ND as [|? ? Nin ND']; subst. cbn [interp_block] in H.
      destruct (nth_error insts i) as [d|] eqn:Hn.
      2:{ injection H as <- <- <- <-. cbn. rewrite Hn. split; [reflexivity|]. split; [auto|]. split; [auto|].
          intros [|k l1] j l2 d A1 u1 E Hj Hd Ha; cbn in E; injection E as E1 E2; subst.
          - congruence.
          - cbn in Ha. rewrite Hn in Ha. discriminate. }
      destruct (is_dead d) eqn:Hd.
      + destruct (IH _ _ _ _ _ _ _ ND' H) as (H1 & H2 & H3 & H4). cbn. rewrite Hn, Hd.
        split; [exact H1|]. split; [intros k Hk; apply H2; tauto|]. split; [exact H3|].
        intros [|k l1] j l2 e A1 u1 E Hj Hde Ha; cbn in E; injection E as E1 E2; subst.
        * congruence.
        * cbn in Ha. rewrite Hn, Hd in Ha. eapply H4; eauto.
      + set (inp := Z.to_nat (fst (d_io d))) in *.
        set (sn1 := if (0 <? inp)%nat then set_in sn i (rev (firstn inp A)) else sn) in *.
        assert (S1o : forall k, sn_out sn1 k = sn_out sn k) by (intros k; subst sn1; destruct (0 <? inp)%nat; reflexivity).
        assert (S1i : forall k, k <> i -> sn_in sn1 k = sn_in sn k).
        { intros k Hk. subst sn1. destruct (0 <? inp)%nat; [|reflexivity]. cbn. apply upd_other. exact Hk. }
        assert (S10 : inp = 0%nat -> sn_in sn1 i = sn_in sn i).
        { intros E. subst sn1. rewrite E. reflexivity. }
        assert (S11 : (0 < inp)%nat -> sn_in sn1 i = rev (firstn inp A)).
        { intros E. subst sn1. destruct (Nat.ltb_spec 0 inp); [|lia]. cbn. apply upd_same. }
        destruct (interp_inst env i d A u) as [[A'|] u1] eqn:Hi.
        * set (sn2 := if (0 <? snd (d_io d)) && negb (is_swap (d_op d)) then set_out sn1 i (hd_error A') else sn1) in *.
          assert (S2i : forall k, sn_in sn2 k = sn_in sn1 k) by (intros k; subst sn2; destruct (_ && _); reflexivity).
          assert (S2o : forall k, k <> i -> sn_out sn2 k = sn_out sn1 k).
          { intros k Hk. subst sn2. destruct (_ && _); [|reflexivity]. cbn. apply upd_other. exact Hk. }
          assert (S20 : records_out d = false -> sn_out sn2 i = sn_out sn1 i).
          { intros E. subst sn2. unfold records_out in E. rewrite E. reflexivity. }
          assert (S21 : records_out d = true -> sn_out sn2 i = hd_error A').
          { intros E. subst sn2. unfold records_out in E. rewrite E. cbn. apply upd_same. }
          destruct (IH _ _ _ _ _ _ _ ND' H) as (H1 & H2 & H3 & H4). cbn [astack]. rewrite Hn, Hd, Hi.
          split; [exact H1|]. split.
          { intros k Hk. destruct (H2 k) as [X1 X2]; [cbn in Hk; tauto|]. assert (k <> i) by (cbn in Hk; intuition).
            rewrite X1, X2, S2i, S2o, S1i, S1o; auto. }
          split.
          { intros k e He. destruct (H3 k e He) as [X1 X2]. destruct (Nat.eq_dec k i) as [-> |Hk].
            - assert (e = d) by congruence. subst e. split; intros E.
              + rewrite X1, S2i, S10; auto.
              + rewrite X2, S20, S1o; auto.
            - split; intros E; [rewrite X1, S2i, S1i; auto|rewrite X2, S2o, S1o; auto]. }
          intros [|k l1] j l2 e A1 v1 E Hj Hde Ha; cbn in E; injection E as E1 E2; subst.
          -- cbn in Ha. injection Ha as <- <-. assert (e = d) by congruence. subst e. destruct (H2 j Nin) as [X1 X2].
             split; [intros E; rewrite X1, S2i; apply S11, E|]. intros A2 u2 E3 E4. rewrite X2, S21 by exact E4. congruence.
          -- cbn in Ha. rewrite Hn, Hd, Hi in Ha. eapply H4; eauto.
        * injection H as <- <- <- <-. cbn [astack]. rewrite Hn, Hd, Hi. split; [reflexivity|]. split.
          { intros k Hk. assert (k <> i) by (cbn in Hk; intuition). rewrite S1i, S1o; auto. }
          split.
          { intros k e He. split; intros E; [|apply S1o]. destruct (Nat.eq_dec k i) as [-> |Hk]; [|apply S1i, Hk].
            assert (e = d) by congruence. subst e. apply S10, E. }
          intros [|k l1] j l2 e A1 v1 E Hj Hde Ha; cbn in E; injection E as E1 E2; subst.
          -- cbn in Ha. injection Ha as <- <-. assert (e = d) by congruence. subst e.
             split; [intros E; apply S11, E|]. intros A2 u2 E3. congruence.
          -- cbn in Ha. rewrite Hn, Hd, Hi in Ha. discriminate.
  Qed.
End Run.

Lemma seq_split s n k : (k < n)%nat -> seq s n = seq s k ++ (s + k)%nat :: seq (S (s + k)) (n - k - 1).
Proof.
  intros H. replace n with (k + S (n - k - 1))%nat at 1 by lia. rewrite seq_app. reflexivity.
Qed.

(** ** Concrete executions inside a block. *)
Section Local.
  Context {Y : Type} (prog : list idata) (env : aenv)
          (sem : nat -> list Z -> Y -> option (list Z * Y)) (y0 : Y).
  Notation const := (a_const env).
  Notation dest := (a_dest env).
  Notation exec := (evm_exec const dest sem).
  Notation step := (evm_step prog const dest sem).
  Notation R := (reach prog const dest sem y0).
  Hypothesis PO : prog_ok prog const dest.
  Hypothesis SO : sem_ok prog const sem (a_codelen env).
  Notation pre := (pre prog const dest sem y0).
  Notation cfg_ok := (cfg_ok prog const dest sem y0).
  Let DEST := po_dest _ _ _ PO.

  (** Stack effect of an executed instruction. *)
  Lemma exec_len i d0 d st y j st' y' : nth_error prog i = Some d0 -> same d0 d -> exec i d st y = Some (j, st', y') ->
    0 <= fst (d_io d) /\ 0 <= snd (d_io d) /\ fst (d_io d) <= Z.of_nat (length st) /\
    Z.of_nat (length st') = Z.of_nat (length st) - fst (d_io d) + snd (d_io d).
  Proof.
    intros Hn SM H.
    assert (Hex := H). unfold evm_exec in H. destruct (f_disabled (d_flags d) || f_unknown (d_flags d)) eqn:Ef; [discriminate|].
    assert (Op : d_op d = d_op d0) by apply SM.
    assert (Ef0 : f_disabled (d_flags d0) || f_unknown (d_flags d0) = false).
    { destruct SM as (_ & _ & E1 & E2 & _). rewrite <- E1, <- E2. exact Ef. }
    pose proof (po_io _ _ _ PO i d0 Hn Ef0) as IO. destruct SM as (_ & Eio & _). rewrite <- Eio, <- Op in IO.
    destruct IO as (I1 & I2 & Ipush & Ipop & Idup & Iswap & Idn & Isn & Iex & Ij & Iji & _).
    split; [exact I1|]. split; [exact I2|].
    assert (XL : forall a b s, exchange a b st = Some s -> (a < length st)%nat /\ (b < length st)%nat /\ length s = length st).
    { intros a b s E. pose proof (nth_exchange _ _ _ _ E) as [L _]. unfold exchange in E.
      destruct (nth_error st a) eqn:Ea; [|discriminate]. destruct (nth_error st b) eqn:Eb; [|discriminate].
      apply nth_lt in Ea, Eb. auto. }
    destruct ((0x5f <=? d_op d) && (d_op d <=? 0x7f)) eqn:E1.
    { injection H as _ <- _. rewrite Ipush by lia. cbn [fst snd length]. lia. }
    destruct (d_op d =? 0x50) eqn:E2.
    { destruct st as [|v st]; [discriminate|]. injection H as _ <- _. rewrite Ipop by lia. cbn [fst snd length]. lia. }
    destruct ((0x80 <=? d_op d) && (d_op d <=? 0x8f)) eqn:E3.
    { destruct (nth_error st _) as [v|] eqn:En; [|discriminate]. injection H as _ <- _. apply nth_lt in En.
      rewrite Idup by lia. cbn [fst snd length]. lia. }
    destruct ((0x90 <=? d_op d) && (d_op d <=? 0x9f)) eqn:E4.
    { apply keep_some in H as (s & Es & H). injection H as _ -> _. destruct (XL _ _ _ Es) as (X1 & X2 & X3).
      rewrite Iswap by lia. cbn [fst snd length]. lia. }
    destruct (d_op d =? 0xe6) eqn:E5.
    { destruct (eip_single (const i)) as [n|] eqn:En; [|discriminate]. destruct (nth_error st _) as [v|] eqn:Ev; [|discriminate].
      injection H as _ <- _. apply nth_lt in Ev. rewrite (Idn ltac:(lia) n eq_refl). cbn [fst snd length].
      assert (1 <= n)%nat.
      { unfold eip_single in En. pose proof (po_byte _ _ _ PO i d0 Hn ltac:(lia)) as B. 
        destruct (decode_single_eip (const i) B) as [(m & _ & X & Y0)|[_ X]]; unfold eip_single in X; rewrite En in X; [|discriminate].
        injection X as <-. exact Y0. }
      lia. }
    destruct (d_op d =? 0xe7) eqn:E6.
    { destruct (eip_single (const i)) as [n|] eqn:En; [|discriminate].
      apply keep_some in H as (s & Es & H). injection H as _ -> _. destruct (XL _ _ _ Es) as (X1 & X2 & X3).
      rewrite (Isn ltac:(lia) n eq_refl). cbn [fst snd length]. lia. }
    destruct (d_op d =? 0xe8) eqn:E7.
    { destruct (eip_pair (const i)) as [[n m]|] eqn:En; [|discriminate].
      apply keep_some in H as (s & Es & H). injection H as _ -> _. destruct (XL _ _ _ Es) as (X1 & X2 & X3).
      rewrite (Iex ltac:(lia) n m eq_refl). cbn [fst snd length]. lia. }
    destruct (exec_other env sem _ _ _ _ _ _ _ Hex E1 E2 E3 E4 E5 E6 E7) as [(O & t & ->)|[(O & t & c & ->)|(O1 & O2 & outs & LS & Hs & ->)]].
    - rewrite (Ij O). cbn [fst snd length]. lia.
    - rewrite (Iji O). cbn [fst snd length]. lia.
    - destruct (so_len _ _ _ _ SO i d0 _ _ _ _ Hn Hs) as [Lo _]. rewrite <- Eio in Lo.
      rewrite app_length, skipn_length. lia.
  Qed.

  Lemma interp_some i d0 d A used st y z :
    nth_error prog i = Some d0 -> same d0 d -> exec i d st y = Some z -> fst (d_io d) <= Z.of_nat (length A) ->
    exists A' u', interp_inst env i d A used = (Some A', u').
  Proof.
    intros Hn SM He HA. destruct (interp_inst env i d A used) as [[A'|] u'] eqn:E; [eauto|exfalso].
    destruct (interp_none prog env sem PO i d0 d A used u' st y z Hn SM He E). lia.
  Qed.

  Section P.
    Variable p : bc.
    Hypothesis OK : cfg_ok p.
    Let insts := b_insts p.
    Let SK := pr_skel _ _ _ _ _ _ (co_pre _ _ _ _ _ _ OK).

    Definition hsum (s n : nat) : Z :=
      fold_right Z.add 0 (map (fun k => match nth_error insts k with Some d => snd (d_io d) - fst (d_io d) | None => 0 end) (seq s n)).
    Lemma hsum_S s n d : nth_error insts (s + n) = Some d -> hsum s (S n) = hsum s n + (snd (d_io d) - fst (d_io d)).
    Proof.
      intros H. unfold hsum. rewrite seq_S, map_app, fold_right_app. cbn [map fold_right]. rewrite H.
      generalize (snd (d_io d) - fst (d_io d)). intros c. generalize (seq s n). induction l as [|x l IH]; cbn [map fold_right]; lia.
    Qed.

    (** State [i, st] was reached from the entry of block [bl] with stack [ste]. *)
    Definition entered (bl : blk) (ste : list Z) (i : nat) (st : list Z) : Prop :=
      (bk_start bl <= i < bk_end bl)%nat /\ (exists ye, R (bk_start bl) ste ye) /\
      Z.of_nat (length st) = Z.of_nat (length ste) + hsum (bk_start bl) (i - bk_start bl).
    (** ... and the interpreter started with [A0], [u0] describes it. *)
    Definition tracks (bl : blk) (ste : list Z) (A0 : list aval) (u0 : Z) (i : nat) (st : list Z) (A : list aval) (u : Z) : Prop :=
      entered bl ste i st /\ astack env insts (seq (bk_start bl) (i - bk_start bl)) A0 u0 = Some (A, u) /\
      prel A st /\ (length A + length ste = length A0 + length st)%nat.

    Lemma entered_start b bl st y : nth_error (b_blocks p) b = Some bl -> R (bk_start bl) st y -> entered bl st (bk_start bl) st.
    Proof.
      intros Hb HR. pose proof (block_bounds _ _ _ _ _ p OK _ _ Hb). split; [lia|]. split; [eauto|].
      rewrite Nat.sub_diag. cbn. lia.
    Qed.
    Lemma tracks_start b bl st y A0 u0 : nth_error (b_blocks p) b = Some bl -> R (bk_start bl) st y -> prel A0 st ->
      tracks bl st A0 u0 (bk_start bl) st A0 u0.
    Proof.
      intros Hb HR P. split; [eapply entered_start; eauto|]. rewrite Nat.sub_diag. cbn. auto.
    Qed.

    Lemma inst_of i d : nth_error insts i = Some d -> exists d0, nth_error prog i = Some d0 /\ same d0 d.
    Proof.
      intros H. destruct SK as [L S]. destruct (nth_some prog i) as [d0 H0]; [apply nth_lt in H; unfold insts in *; congruence|].
      exists d0. split; [exact H0|]. apply (S i d0 d H0 H).
    Qed.
    Lemma step_exec i st y j st' y' d : nth_error insts i = Some d -> step i st y = Some (j, st', y') ->
      exec i d st y = Some (j, st', y').
    Proof.
      intros Hn Hs. destruct (inst_of _ _ Hn) as (d0 & H0 & SM).
      destruct (step_cases prog const dest sem _ _ _ _ _ _ _ H0 Hs) as (_ & _ & He).
      rewrite (exec_same env sem i d0 d st y SM) in He. exact He.
    Qed.

    Lemma entered_step bl ste i st y j st' y' d : entered bl ste i st -> nth_error insts i = Some d ->
      step i st y = Some (j, st', y') ->
      Z.of_nat (length st') = Z.of_nat (length ste) + hsum (bk_start bl) (S (i - bk_start bl)).
    Proof.
      intros (Hr & _ & HL) Hn Hs. destruct (inst_of _ _ Hn) as (d0 & H0 & SM).
      pose proof (exec_len _ _ _ _ _ _ _ _ H0 SM (step_exec _ _ _ _ _ _ _ Hn Hs)) as (_ & _ & _ & L).
      rewrite (hsum_S _ _ d); [lia|]. replace (bk_start bl + (i - bk_start bl))%nat with i by lia. exact Hn.
    Qed.
    Lemma entered_next bl ste i st y st' y' d : entered bl ste i st -> nth_error insts i = Some d ->
      R i st y -> step i st y = Some (S i, st', y') -> (S i < bk_end bl)%nat -> entered bl ste (S i) st'.
    Proof.
      intros E Hn HR Hs He. pose proof (entered_step _ _ _ _ _ _ _ _ _ E Hn Hs) as L. destruct E as (Hr & Hx & _).
      split; [lia|]. split; [exact Hx|]. replace (S i - bk_start bl)%nat with (S (i - bk_start bl)) by lia. exact L.
    Qed.

    (** Running one instruction; the result describes the next state whether or not it stays in the block. *)
    Lemma tracks_exec bl ste A0 u0 i st y j st' y' d A u :
      tracks bl ste A0 u0 i st A u -> nth_error insts i = Some d -> is_dead d = false -> R i st y ->
      step i st y = Some (j, st', y') -> fst (d_io d) <= Z.of_nat (length A) ->
      exists A' u', interp_inst env i d A u = (Some A', u') /\
        astack env insts (seq (bk_start bl) (S i - bk_start bl)) A0 u0 = Some (A', u') /\
        prel A' st' /\ (length A' + length ste = length A0 + length st')%nat.
    Proof.
      intros ((Hr & _ & _) & HA & HP & HL) Hn Hd HR Hs HI.
      destruct (inst_of _ _ Hn) as (d0 & H0 & SM). pose proof (step_exec _ _ _ _ _ _ _ Hn Hs) as He.
      destruct (interp_some i d0 d A u st y _ H0 SM He HI) as (A' & u' & E).
      destruct (interp_sound prog env sem PO SO i d0 d A u A' u' st y j st' y' H0 SM He) as [P' L']; auto.
      { eapply reach_words; eauto. }
      exists A', u'. split; [exact E|]. split; [|split; [exact P'|lia]].
      replace (S i - bk_start bl)%nat with (S (i - bk_start bl)) by lia. rewrite seq_S.
      replace (bk_start bl + (i - bk_start bl))%nat with i by lia. rewrite (astack_snoc env insts _ i d _ _ Hn Hd), HA, E. reflexivity.
    Qed.

    (** What a snapshot must satisfy at a reached state. *)
    Definition snap_ok (sn : snaps) (i : nat) (st : list Z) (y : Y) : Prop :=
      prel (rev (sn_in sn i)) st /\
      forall j st' y' a v, step i st y = Some (j, st', y') -> sn_out sn i = Some a -> hd_error st' = Some v -> gamma a v.

    (** A tracked state whose operands all exist: the snapshots written by the run are right. *)
    Lemma tracks_snap bl ste A0 u0 sn ok stk sn' u' i st y d A u (old : snaps) :
      tracks bl ste A0 u0 i st A u -> nth_error insts i = Some d -> is_dead d = false -> R i st y ->
      (fst (d_io d) <= Z.of_nat (length st) -> fst (d_io d) <= Z.of_nat (length A)) ->
      interp_block env insts (blk_insts bl) A0 sn u0 = (ok, stk, sn', u') ->
      snap_ok old i st y ->
      (Z.to_nat (fst (d_io d)) = 0%nat -> sn_in sn' i = sn_in old i) -> (records_out d = false -> sn_out sn' i = sn_out old i) ->
      snap_ok sn' i st y /\
      (0 < Z.to_nat (fst (d_io d)) -> Z.to_nat (fst (d_io d)) <= length st -> length (sn_in sn' i) = Z.to_nat (fst (d_io d)))%nat.
    Proof.
      intros T Hn Hd HR HI Hrun [G1 G2] F1 F2.
      destruct T as (E & HA & HP & HL). pose proof E as (Hr & _).
      assert (ND : NoDup (blk_insts bl)) by apply seq_NoDup.
      destruct (interp_block_run env insts _ _ _ _ _ _ _ _ ND Hrun) as (_ & _ & _ & H4).
      assert (SP : blk_insts bl = seq (bk_start bl) (i - bk_start bl) ++ i :: seq (S i) (bk_end bl - bk_start bl - (i - bk_start bl) - 1)).
      { unfold blk_insts. rewrite (seq_split _ _ (i - bk_start bl)) by lia.
        replace (bk_start bl + (i - bk_start bl))%nat with i by lia. reflexivity. }
      destruct (H4 _ _ _ _ _ _ SP Hn Hd HA) as [I1 I2].
      assert (PIn : (0 < Z.to_nat (fst (d_io d)))%nat -> sn_in sn' i = rev (firstn (Z.to_nat (fst (d_io d))) A)) by exact I1.
      split; [split|].
      - destruct (Nat.eq_dec (Z.to_nat (fst (d_io d))) 0) as [Z0|Z0]; [rewrite F1 by exact Z0; exact G1|].
        rewrite PIn by lia. rewrite rev_involutive. intros k a v Ha Hv.
        assert (K : (k < Z.to_nat (fst (d_io d)))%nat). { apply nth_lt in Ha. rewrite firstn_length in Ha. lia. }
        apply (HP k a v); [|exact Hv]. rewrite <- Ha. symmetry.
        rewrite <- (firstn_skipn (Z.to_nat (fst (d_io d))) A) at 2. rewrite nth_error_app1; [reflexivity|].
        apply nth_lt in Ha. exact Ha.
      - intros j st' y' a v Hs Ho Hv.
        destruct (records_out d) eqn:RO; [|rewrite F2 in Ho by reflexivity; eapply G2; eauto].
        destruct (inst_of _ _ Hn) as (d0 & H0 & SM).
        pose proof (exec_len _ _ _ _ _ _ _ _ H0 SM (step_exec _ _ _ _ _ _ _ Hn Hs)) as (_ & _ & LI & _).
        assert (T : tracks bl ste A0 u0 i st A u) by (unfold tracks; auto).
        destruct (tracks_exec _ _ _ _ _ _ _ _ _ _ _ _ _ T Hn Hd HR Hs (HI LI)) as (A' & u1 & Hi & _ & P' & _).
        rewrite (I2 _ _ Hi eq_refl) in Ho. destruct A' as [|a' A']; [discriminate|]. injection Ho as ->.
        destruct st' as [|w st']; [discriminate|]. injection Hv as ->. apply (P' 0%nat a v); reflexivity.
      - intros Z0 Z1. rewrite PIn by exact Z0. rewrite rev_length, firstn_length.
        assert (fst (d_io d) <= Z.of_nat (length A)) by (apply HI; lia). lia.
    Qed.

    (** *** The block-local analysis. *)
    Lemma io_nonneg i d : nth_error insts i = Some d -> 0 <= fst (d_io d) /\ 0 <= snd (d_io d).
    Proof.
      intros Hn. destruct (inst_of _ _ Hn) as (d0 & H0 & SM). destruct SM as (_ & Eio & _).
      rewrite Eio. destruct (f_disabled (d_flags d0) || f_unknown (d_flags d0)) eqn:E.
      - rewrite (po_io_off _ _ _ PO _ _ H0 E). cbn. lia.
      - destruct (po_io _ _ _ PO _ _ H0 E) as (A & B & _). auto.
    Qed.

    (** Enough inputs are assumed for every instruction of the block. *)
    Lemma stack_process_mono : forall q s0, s_inputs s0 <= s_inputs (fold_left stack_process q s0).
    Proof.
      induction q as [|e q IH]; intros s0; cbn [fold_left]; [lia|].
      specialize (IH (stack_process s0 e)). unfold stack_process at 1 in IH. cbn [s_inputs] in IH. lia.
    Qed.
    Lemma stack_process_diff : forall q s0, s_diff (fold_left stack_process q s0) = s_diff s0 + fold_right Z.add 0 (map (fun io => snd io - fst io) q).
    Proof.
      induction q as [|e q IH]; intros s0; cbn [fold_left map fold_right]; [lia|].
      rewrite IH. unfold stack_process at 1. cbn [s_diff]. lia.
    Qed.
    Lemma block_inputs_enough b bl i d : nth_error (b_blocks p) b = Some bl -> (bk_start bl <= i < bk_end bl)%nat ->
      nth_error insts i = Some d ->
      fst (d_io d) - hsum (bk_start bl) (i - bk_start bl) <= Z.of_nat (block_inputs insts bl) \/ block_inputs insts bl = Z.to_nat 65535.
    Proof.
      intros Hb Hi Hn. unfold block_inputs.
      set (io k := match nth_error insts k with Some d => d_io d | None => (0, 0) end).
      assert (SP : blk_insts bl = seq (bk_start bl) (i - bk_start bl) ++ i :: seq (S i) (bk_end bl - bk_start bl - (i - bk_start bl) - 1)).
      { unfold blk_insts. rewrite (seq_split _ _ (i - bk_start bl)) by lia.
        replace (bk_start bl + (i - bk_start bl))%nat with i by lia. reflexivity. }
      rewrite SP, map_app. cbn [map]. unfold from_stack_io, stack_section. cbn [fst].
      rewrite fold_left_app. cbn [fold_left].
      set (s1 := fold_left stack_process (map io (seq (bk_start bl) (i - bk_start bl))) s_init).
      pose proof (stack_process_mono (map io (seq (S i) (bk_end bl - bk_start bl - (i - bk_start bl) - 1))) (stack_process s1 (io i))) as M.
      assert (D : s_diff s1 = hsum (bk_start bl) (i - bk_start bl)).
      { subst s1. rewrite stack_process_diff. cbn [s_diff s_init]. unfold hsum. rewrite map_map. cbn [Z.add]. f_equal.
        apply map_ext. intros k. subst io. cbn. destruct (nth_error insts k); reflexivity. }
      unfold stack_process at 1 in M. cbn [s_inputs] in M. rewrite D in M.
      assert (Ei : io i = d_io d) by (subst io; cbn; rewrite Hn; reflexivity). rewrite Ei in M. rewrite Ei.
      clearbody s1. set (s2 := fold_left stack_process _ (stack_process s1 (d_io d))) in *. clearbody s2.
      change U16_MAX with 65535.
      destruct ((0 <=? s_inputs s2) && (s_inputs s2 <=? 65535)) eqn:E; [left; lia|right; reflexivity].
    Qed.

    Definition tops (bl : blk) : list aval := repeat ATop (block_inputs insts bl).

    Lemma local_enough b bl ste u0 i st y d A u : nth_error (b_blocks p) b = Some bl -> R i st y ->
      tracks bl ste (tops bl) u0 i st A u -> nth_error insts i = Some d ->
      fst (d_io d) <= Z.of_nat (length st) -> fst (d_io d) <= Z.of_nat (length A).
    Proof.
      intros Hb HR ((Hr & (ye & HRe) & Hh) & _ & _ & HL) Hn HI.
      unfold tops in HL. rewrite repeat_length in HL.
      pose proof (reach_len prog env sem y0 _ _ _ HR). pose proof (reach_len prog env sem y0 _ _ _ HRe).
      destruct (block_inputs_enough _ _ _ _ Hb Hr Hn) as [E|E]; lia.
    Qed.

    (** Every reached state is described by the local run of its block. *)
    Lemma local_tracks i st y d : R i st y -> nth_error insts i = Some d ->
      exists b bl ste, nth_error (b_blocks p) b = Some bl /\ entered bl ste i st /\
        forall u0, exists A u, tracks bl ste (tops bl) u0 i st A u.
    Proof.
      intros HR. revert d.
      assert (Start : forall j st' y' b bl, R j st' y' -> nth_error (b_blocks p) b = Some bl -> bk_start bl = j ->
        exists b bl ste, nth_error (b_blocks p) b = Some bl /\ entered bl ste j st' /\
          forall u0, exists A u, tracks bl ste (tops bl) u0 j st' A u).
      { intros j st' y' b bl HRj Hb <-. exists b, bl, st'. split; [exact Hb|]. split; [eapply entered_start; eauto|].
        intros u0. exists (tops bl), u0. eapply tracks_start; eauto. apply prel_tops. }
      induction HR as [|i st y j st' y' HR IH Hs]; intros dj Hj.
      - destruct (block_zero _ _ _ _ _ p OK _ Hj) as (bl & Hb & E). eapply (Start 0%nat [] y0); eauto. constructor.
      - assert (exists d, nth_error insts i = Some d) as [d Hn].
        { unfold evm_step in Hs. destruct (nth_error prog i) as [d0|] eqn:E0; [|discriminate].
          destruct SK as [L _]. apply nth_some. apply nth_lt in E0. unfold insts. congruence. }
        destruct (IH _ Hn) as (b & bl & ste & Hb & HE & HT).
        assert (HR' : R j st' y') by (eapply reach_step; eauto).
        pose proof HE as (Hr & _).
        destruct (step_block _ _ _ _ _ DEST p OK _ _ _ _ _ _ _ _ _ HR Hs Hb Hr Hj) as (d1 & Hd1 & Hd & Hc).
        assert (d1 = d) by (unfold insts in *; congruence). subst d1.
        destruct Hc as [(He & -> & Hjmp)|(He & b' & bl' & Hb' & Es & _)].
        + exists b, bl, ste. split; [exact Hb|]. split; [eapply entered_next; eauto|].
          intros u0. destruct (HT u0) as (A & u & T).
          destruct (inst_of _ _ Hn) as (d0 & H0 & SM).
          pose proof (exec_len _ _ _ _ _ _ _ _ H0 SM (step_exec _ _ _ _ _ _ _ Hn Hs)) as (_ & _ & LI & _).
          destruct (tracks_exec _ _ _ _ _ _ _ _ _ _ _ _ _ T Hn Hd HR Hs) as (A' & u' & _ & Ha & HP & HL).
          { exact (local_enough _ _ _ _ _ _ _ _ _ _ Hb HR T Hn LI). }
          exists A', u'. split; [eapply entered_next; eauto|]. auto.
        + eapply Start; eauto.
    Qed.
  End P.
End Local.
