(** [Bytecode::analyze] as a whole, and the jumps emitted from its result. *)
From Verif Require Import ProgramModel JumpModel FlowSpec CfgProof ArithSpec BlockProof LocalProof CommitProof GlobalProof FixpointProof ProgramProof.
From Coq Require Import ZifyBool.
Open Scope Z_scope.

Lemma skel_orig prog l i d : skel prog l -> nth_error l i = Some d -> exists d0, nth_error prog i = Some d0 /\ same d0 d.
Proof. intros [L S] H. destruct (nth_some prog i) as [d0 H0]; [apply nth_lt in H; lia|]. eauto. Qed.
Lemma skel_new prog l i d0 : skel prog l -> nth_error prog i = Some d0 -> exists d, nth_error l i = Some d /\ same d0 d.
Proof. intros [L S] H0. destruct (nth_some l i) as [d H]; [apply nth_lt in H0; lia|]. eauto. Qed.
Lemma saturate_eq c t : 0 <= t -> c < 2 ^ 64 - 1 -> (c = saturate64 t <-> c = t).
Proof.
  unfold saturate64. change (2 ^ 64) with 18446744073709551616. intros Ht Hc.
  destruct (Z.leb_spec t (18446744073709551616 - 1)); [rewrite Z.mod_small by lia; reflexivity|]. lia.
Qed.
Lemma table_in p j d : nth_error (b_insts p) j = Some d -> d_op d = 0x5b -> is_dead d = false -> In j (table_insts p).
Proof.
  intros H O D. unfold table_insts. apply filter_In. split; [apply in_seq; apply nth_lt in H; lia|].
  rewrite H. unfold is_jumpdest. rewrite O, D. reflexivity.
Qed.

Section Analysis.
  Context {Y : Type} (prog : list idata) (env : aenv)
          (sem : nat -> list Z -> Y -> option (list Z * Y)) (y0 : Y).
  Notation const := (a_const env).
  Notation dest := (a_dest env).
  Notation step := (evm_step prog const dest sem).
  Notation R := (reach prog const dest sem y0).
  Hypothesis PO : prog_ok prog const dest.
  Hypothesis SO : sem_ok prog const sem (a_codelen env).
  Hypothesis RAW : raw prog.
  Hypothesis KEY : forall x y, a_key env x = a_key env y -> x = y.
  Notation pre := (pre prog const dest sem y0).
  Notation cfg_ok := (cfg_ok prog const dest sem y0).
  Notation good := (good prog env sem y0).
  Let DEST := po_dest _ _ _ PO.

  Lemma initial_pre : pre (initial prog).
  Proof.
    constructor; cbn.
    - apply skel_refl.
    - reflexivity.
    - intros i st y d _ H _ t st1 _. cbn in H. destruct (RAW i d H) as (F1 & F2 & F3 & F4 & F5). cbn zeta. rewrite F1, F4. split; discriminate.
    - intros i st y d _ H. cbn in H. destruct (RAW i d H) as (_ & _ & _ & _ & F5). exact F5.
    - split.
      + intros d H. destruct (RAW _ _ H) as (_ & _ & _ & _ & F5). exact F5.
      + intros k d d1 _ H X. destruct (RAW _ _ H) as (_ & _ & _ & _ & F5). unfold is_dead in X. congruence.
    - intros i d H. cbn in H. destruct (RAW i d H) as (F1 & F2 & F3 & F4 & F5). unfold is_static_jump. rewrite F1, F2, F3, andb_false_r. split; [discriminate|]. split; discriminate.
  Qed.

  Lemma local_ok p : analyze_local env (initial prog) = Some p -> cfg_ok p /\ good (b_snaps p).
  Proof.
    unfold analyze_local. destruct (refresh_cfg (initial prog)) as [p1|] eqn:E1; [|discriminate].
    destruct (refresh_ok _ _ _ _ _ DEST _ _ initial_pre E1) as (OK1 & S1 & _).
    destruct (block_analysis_local env p1) as [p2|] eqn:E2; [|discriminate]. intros E3.
    assert (S0 : forall i st y, R i st y -> snap_ok prog env sem (b_snaps p1) i st y).
    { intros i st y HR. rewrite S1. cbn. split; [intros [|k] a v X; discriminate|]. intros j st' y' a v _ X. discriminate. }
    destruct (local_analysis_ok prog env sem y0 PO SO p1 OK1 p2 S0 E2) as [P2 G2].
    destruct (refresh_ok _ _ _ _ _ DEST _ _ P2 E3) as (OK3 & S3 & _). split; [exact OK3|]. rewrite S3. exact G2.
  Qed.

  Definition converges (q : option bc) : Prop := exists p1, q = Some p1 /\ snd (run_fixpoint env p1) = true.
  Lemma global_ok p : (converges (analyze_local env (initial prog)) -> forall i st y, R i st y -> (length st <= 64)%nat) -> analyze env prog = Some p -> cfg_ok p /\ good (b_snaps p).
  Proof.
    intros DEPTH. unfold analyze. destruct (analyze_local env (initial prog)) as [p1|] eqn:E1; [|discriminate].
    destruct (local_ok p1 E1) as [OK1 G1]. unfold analyze_global.
    destruct (block_analysis env p1 (b_snaps p1)) as [p2|] eqn:E2; [|discriminate]. intros E3.
    destruct (block_analysis_ok prog env sem y0 PO SO KEY p1 OK1 (fun C => DEPTH (ex_intro _ p1 (conj eq_refl C))) p2 G1 E2) as [P2 G2].
    destruct (refresh_ok _ _ _ _ _ DEST _ _ P2 E3) as (OK3 & S3 & _). split; [exact OK3|]. rewrite S3. exact G2.
  Qed.

  (** No panic, no fuel exhaustion. *)
  Lemma analyze_local_total : analyze_local env (initial prog) <> None.
  Proof.
    unfold analyze_local. pose proof (refresh_total (initial prog) eq_refl) as T1.
    destruct (refresh_cfg (initial prog)) as [p1|] eqn:E1; [|congruence].
    destruct (refresh_ok _ _ _ _ _ DEST _ _ initial_pre E1) as (OK1 & S1 & _).
    assert (S0 : forall i st y, R i st y -> snap_ok prog env sem (b_snaps p1) i st y).
    { intros i st y HR. rewrite S1. cbn. split; [intros [|k] a v X; discriminate|]. intros j st' y' a v _ X. discriminate. }
    destruct (block_analysis_local env p1) as [p2|] eqn:E2.
    - destruct (local_analysis_ok prog env sem y0 PO SO p1 OK1 p2 S0 E2) as [P2 _]. apply refresh_total, (pr_redir _ _ _ _ _ _ P2).
    - exfalso. unfold block_analysis_local in E2.
      destruct (fold_left (local_block env p1) (b_blocks p1) ([], (b_snaps p1, b_used p1))) as [rs [sn used]].
      pose proof (commit_resolved_total rs (with_snaps p1 sn used) (pr_redir _ _ _ _ _ _ (co_pre _ _ _ _ _ _ OK1))) as T2.
      destruct (commit_resolved rs (with_snaps p1 sn used)); [discriminate|congruence].
  Qed.

  Lemma good_operand sn p i st y depth v : good sn -> R i st y -> (i < length prog)%nat -> b_snaps p = sn -> const_operand p i depth = Some v ->
    (depth < length st)%nat -> nth_error st depth = Some v.
  Proof.
    intros G HR Hi <- H L. unfold const_operand in H.
    destruct (nth_error (rev (sn_in (b_snaps p) i)) depth) as [a|] eqn:Ea; [|discriminate].
    destruct a as [w| |]; try discriminate. cbn in H. injection H as ->.
    destruct (nth_some prog i Hi) as [d Hd]. destruct (G i st y d HR Hd) as [[P _] _].
    destruct (nth_some st depth L) as [x Hx]. rewrite Hx. f_equal. apply (P depth (AConst v) x Ea Hx).
  Qed.
  Lemma good_output sn p i st y j st' y' v : good sn -> R i st y -> b_snaps p = sn -> const_output p i = Some v ->
    step i st y = Some (j, st', y') -> st' <> [] -> hd_error st' = Some v.
  Proof.
    intros G HR <- H Hs Hne. unfold const_output in H. destruct (sn_out (b_snaps p) i) as [a|] eqn:Ea; [|discriminate].
    destruct a as [w| |]; try discriminate. cbn in H. injection H as ->.
    assert (Hd : exists d, nth_error prog i = Some d).
    { unfold evm_step in Hs. destruct (nth_error prog i); [eauto|discriminate]. }
    destruct Hd as [d Hd]. destruct (G i st y d HR Hd) as [[_ P] _].
    destruct st' as [|x st']; [congruence|]. cbn. f_equal. apply (P j (x :: st') y' (AConst v) x Hs Ea eq_refl).
  Qed.

  (** ** Emitted jumps. *)
  (** Jump destinations are told apart by their pcs, which are small. *)
  Hypothesis DESTS : forall v j, dest v = Some j <-> (exists d, nth_error prog j = Some d /\ d_op d = 0x5b) /\ const j = v.
  Hypothesis PCS : forall j d, nth_error prog j = Some d -> d_op d = 0x5b -> const j < 2 ^ 64 - 1.

  (** No JUMPI is last: the list is padded with a STOP. *)
  Hypothesis NEXT : forall i d, nth_error prog i = Some d -> d_op d = 0x57 -> (S i < length prog)%nat.

  Section J.
    Variable p : bc.
    Hypothesis OK : cfg_ok p.
    Let RD : b_redirects p = [] := pr_redir _ _ _ _ _ _ (co_pre _ _ _ _ _ _ OK).
    Let SK := pr_skel _ _ _ _ _ _ (co_pre _ _ _ _ _ _ OK).

    Lemma entry_reached i st y : R i st y -> (i < length prog)%nat -> effective_entry p i = JGoto i.
    Proof.
      intros HR Hi. unfold effective_entry, effective_inst. rewrite RD. cbn [lookup].
      destruct (nth_some (b_insts p) i) as [d Hd]; [destruct SK; lia|]. rewrite Hd.
      rewrite (pr_live _ _ _ _ _ _ (co_pre _ _ _ _ _ _ OK) i st y d HR Hd). reflexivity.
    Qed.
    Lemma switch_hit ts v j : In j ts -> const j = v -> (forall t, In t ts -> const t = v -> t = j) -> switch_pcs env p ts v = effective_entry p j.
    Proof.
      induction ts as [|t ts IH]; intros Hin E Hu; [destruct Hin|]. cbn [switch_pcs].
      destruct (a_const env t =? v) eqn:Et.
      - rewrite (Hu t (or_introl eq_refl)) by lia. reflexivity.
      - destruct Hin as [-> |Hin]; [lia|]. apply IH; auto. intros t' Ht'. apply Hu. right; exact Ht'.
    Qed.
    Lemma switch_miss ts v : (forall t, In t ts -> const t <> v) -> switch_pcs env p ts v = JInvalidJump.
    Proof.
      induction ts as [|t ts IH]; intros H; cbn [switch_pcs]; [reflexivity|].
      destruct (a_const env t =? v) eqn:Et; [exfalso; apply (H t); [left; reflexivity|lia]|]. apply IH. intros t' Ht'. apply H. right; exact Ht'.
    Qed.
    Lemma dest_unique j j' : is_dest prog j -> is_dest prog j' -> const j = const j' -> j = j'.
    Proof.
      intros H H' E. assert (A : dest (const j) = Some j) by (apply DESTS; split; [exact H|reflexivity]).
      assert (B : dest (const j) = Some j') by (apply DESTS; split; [exact H'|symmetry; exact E]). congruence.
    Qed.

    Lemma in_table t : In t (table_insts p) -> exists d, nth_error (b_insts p) t = Some d /\ is_jumpdest d = true /\ is_dead d = false.
    Proof.
      unfold table_insts. rewrite filter_In. intros [_ H]. destruct (nth_error (b_insts p) t) as [d|]; [|discriminate].
      exists d. apply andb_true_iff in H as [H1 H2]. split; [reflexivity|]. split; [exact H1|]. destruct (is_dead d); [discriminate|reflexivity].
    Qed.

    (** Every executed jump goes exactly where the EVM goes. *)
    Lemma lower_jump_ok i st y d t st1 : R i st y -> nth_error (b_insts p) i = Some d -> st = t :: st1 -> is_word t ->
      (d_op d = OP_JUMP \/ (d_op d = OP_JUMPI /\ st1 <> [])) -> (length st <= 1024)%nat ->
      lower_jump env p i d t (hd 0 st1) =
        Some match step i st y with Some (j, _, _) => JGoto j | None => JInvalidJump end.
    Proof.
      intros HR Hn Est Wt Hop Hlen.
      destruct (skel_orig _ _ _ _ SK Hn) as (d0 & H0 & (E1 & E2 & E3 & E4 & _)).
      assert (Hj : is_jump d = true) by (unfold is_jump; destruct Hop as [-> |[-> _]]; reflexivity).
      assert (Ho : d_op d0 = 0x56 \/ d_op d0 = 0x57) by (rewrite <- E1; destruct Hop as [X|[X _]]; [left|right]; exact X).
      pose proof (po_jump _ _ _ PO i d0 H0 Ho) as Act.
      pose proof (pr_flags _ _ _ _ _ _ (co_pre _ _ _ _ _ _ OK) i st y d HR Hn Hj t st1 Est) as [J1 J2]. cbn zeta in J1, J2.
      (* continuing at a reached instruction *)
      assert (Live : forall j st' y', step i st y = Some (j, st', y') -> (j < length prog)%nat -> effective_entry p j = JGoto j).
      { intros j st' y' Hs Hl. eapply entry_reached; [eapply reach_step; eauto|exact Hl]. }
      (* where the jump goes when taken *)
      set (target := if f_invalid (d_flags d) then Some JInvalidJump
        else if f_multi (d_flags d) then match b_multi p i with Some ts => Some (switch_pcs env p ts t) | None => None end
        else if f_static (d_flags d) then Some (effective_entry p (d_target d))
        else Some (if b_dyn p then switch_pcs env p (table_insts p) (saturate64 t) else JUnreachable)).
      assert (Tgt : (d_op d = OP_JUMPI -> exists c st2, st1 = c :: st2 /\ c <> 0) ->
        (forall j, dest t = Some j -> exists st' y', step i st y = Some (j, st', y')) ->
        target = Some (match dest t with Some j => JGoto j | None => JInvalidJump end)).
      { intros Tk St. specialize (fun S => J1 S Tk).
        assert (Lj : forall j, dest t = Some j -> effective_entry p j = JGoto j).
        { intros j Hj'. destruct (St j Hj') as (st' & y' & Hs). eapply Live; eauto.
          destruct (DEST _ _ Hj') as (dj & Hdj & _). apply nth_lt in Hdj. exact Hdj. }
        destruct (pr_targets _ _ _ _ _ _ (co_pre _ _ _ _ _ _ OK) i d Hn) as [TM [TT TI]].
        subst target. destruct (f_static (d_flags d)) eqn:Fs.
        - specialize (J1 eq_refl). destruct (f_invalid (d_flags d)) eqn:Fi; [rewrite J1; reflexivity|].
          assert (SJ : is_static_jump d = true) by (unfold is_static_jump; rewrite Hj, Fs; reflexivity).
          specialize (TT SJ eq_refl).
          destruct (f_multi (d_flags d)) eqn:Fm.
          + destruct J1 as (ts & Em & Hts). rewrite Em. f_equal. destruct (dest t) as [j|] eqn:Ed.
            * pose proof Ed as Ed'. apply DESTS in Ed' as [Hd Hc]. rewrite (switch_hit ts t j (Hts j eq_refl) Hc); [apply Lj; reflexivity|].
              intros t' Ht' Hc'. apply dest_unique; [exact (TT ts t' Em Ht')|exact Hd|congruence].
            * apply switch_miss. intros t' Ht' Hc'. assert (dest t = Some t') by (apply DESTS; split; [exact (TT ts t' Em Ht')|exact Hc']). congruence.
          + rewrite J1. f_equal. apply Lj. exact J1.
        - assert (Fi : f_multi (d_flags d) = false).
          { destruct (f_multi (d_flags d)) eqn:Fm; [|reflexivity]. destruct (TM eq_refl) as (X & _). unfold is_static_jump in X. rewrite Fs, andb_false_r in X. discriminate. }
          rewrite Fi.
          assert (Finv : f_invalid (d_flags d) = false).
          { destruct (f_invalid (d_flags d)); [specialize (TI eq_refl); congruence|reflexivity]. }
          rewrite Finv. f_equal.
          assert (Hdead : is_dead d = false) by (eapply (pr_live _ _ _ _ _ _ (co_pre _ _ _ _ _ _ OK)); eauto).
          assert (Dy : b_dyn p = true).
          { eapply (fr_dyn p (co_fresh _ _ _ _ _ _ OK)); [exact Hn|]. unfold unresolved. rewrite Hj, Fs, Hdead. reflexivity. }
          rewrite Dy.
          assert (Tab : forall t', In t' (table_insts p) -> is_dest prog t').
          { intros t' Ht'. destruct (in_table t' Ht') as (dt & Hdt & Jd & _).
            destruct (skel_orig _ _ _ _ SK Hdt) as (d1 & H1 & (E & _)). exists d1. split; [exact H1|].
            apply Z.eqb_eq in Jd. rewrite <- E. exact Jd. }
          assert (Sat : forall j, is_dest prog j -> const j = saturate64 t <-> const j = t).
          { intros j (dj & Hdj & Oj). apply saturate_eq; [apply Wt|exact (PCS j dj Hdj Oj)]. }
          destruct (dest t) as [j|] eqn:Ed.
          + pose proof Ed as Ed'. apply DESTS in Ed' as [Hd Hc]. rewrite <- (Lj j eq_refl). apply switch_hit.
            * destruct Hd as (dj & Hdj & Oj). destruct (skel_new _ _ _ _ SK Hdj) as (d1 & H1 & (E & _)).
              destruct (St j eq_refl) as (st' & y' & Hs). apply (table_in p j d1 H1); [congruence|].
              exact (pr_live _ _ _ _ _ _ (co_pre _ _ _ _ _ _ OK) j st' y' d1 (reach_step _ _ _ _ _ _ _ _ _ _ _ HR Hs) H1).
            * apply Sat; assumption.
            * intros t' Ht' Hc'. apply dest_unique; auto. apply Sat in Hc'; auto. congruence.
          + apply switch_miss. intros t' Ht' Hc'. apply Sat in Hc'; auto.
            assert (dest t = Some t') by (apply DESTS; split; [apply Tab; exact Ht'|exact Hc']). congruence. }
      unfold lower_jump. fold target.
      destruct Hop as [Hop|[Hop Hne]].
      - (* JUMP *)
        rewrite Hop. change (OP_JUMP =? OP_JUMP) with true. change (OP_JUMP =? OP_JUMPI) with false. rewrite andb_true_r. cbn [andb].
        assert (Hs : step i st y = match dest t with Some j => Some (j, st1, y) | None => None end).
        { unfold evm_step. rewrite H0. unfold evm_exec. rewrite Act, <- E1, Hop, Est. cbn. destruct (dest t); [|reflexivity].
          rewrite Est in Hlen. cbn in Hlen. replace (length st1 <=? 1024)%nat with true by (symmetry; apply Nat.leb_le; lia). reflexivity. }
        specialize (Tgt (fun X => ltac:(rewrite Hop in X; discriminate))).
        assert (Tgt' : target = Some match dest t with Some j => JGoto j | None => JInvalidJump end).
        { apply Tgt. intros j Hj'. rewrite Hs, Hj'. eauto. }
        rewrite Hs. destruct (f_invalid (d_flags d)) eqn:Fi.
        + destruct (f_static (d_flags d)) eqn:Fs.
          * rewrite (J1 eq_refl) by (intros X; rewrite Hop in X; discriminate). reflexivity.
          * destruct (pr_targets _ _ _ _ _ _ (co_pre _ _ _ _ _ _ OK) i d Hn) as [_ [_ TI]]. specialize (TI Fi). congruence.
        + rewrite Tgt'. destruct (dest t); reflexivity.
      - (* JUMPI *)
        destruct st1 as [|c st2]; [congruence|]. cbn [hd].
        rewrite Hop. change (OP_JUMPI =? OP_JUMP) with false. change (OP_JUMPI =? OP_JUMPI) with true. rewrite andb_false_r. cbn [andb].
        assert (Hs : step i st y = if c =? 0 then Some (S i, st2, y) else match dest t with Some j => Some (j, st2, y) | None => None end).
        { unfold evm_step. rewrite H0. unfold evm_exec. rewrite Act, <- E1, Hop, Est. cbn.
          rewrite Est in Hlen. cbn in Hlen. assert (B : (length st2 <=? 1024)%nat = true) by (apply Nat.leb_le; lia).
          destruct (c =? 0); [rewrite B; reflexivity|]. destruct (dest t); [rewrite B; reflexivity|reflexivity]. }
        destruct (has_const_jumpi_condition d) eqn:Cc; cbn [negb].
        + assert (Fc : f_constcond (d_flags d) = true) by (unfold has_const_jumpi_condition in Cc; apply andb_true_iff in Cc; tauto).
          rewrite Hs. destruct (Z.eqb_spec c 0) as [Ec|Ec].
          * subst c.
            destruct (J2 Hop Fc st2 eq_refl) as (Fs & Fi & Fm & Ft). subst target. rewrite Fi, Fm, Fs, Ft. f_equal.
            apply (Live (S i) st2 y Hs). apply (NEXT i d0 H0). rewrite <- E1, Hop. reflexivity.
          * rewrite Tgt; [destruct (dest t); reflexivity| |].
            -- intros _. exists c, st2. split; [reflexivity|exact Ec].
            -- intros j Hj'. rewrite Hs, Hj'. eauto.
        + assert (L : (S i < length prog)%nat) by (apply (NEXT i d0 H0); rewrite <- E1, Hop; reflexivity).
          rewrite Hs. unfold effective_next_entry, effective_inst at 1. rewrite RD. cbn [lookup].
          assert (LB : (S i <? length (b_insts p))%nat = true) by (apply Nat.ltb_lt; rewrite (proj1 SK); exact L). rewrite LB.
          destruct (Z.eqb_spec c 0) as [Ec|Ec].
          * rewrite (Live (S i) st2 y Hs L). destruct target eqn:Et; [reflexivity|]. exfalso.
            subst target. destruct (f_invalid (d_flags d)); [discriminate|]. destruct (f_multi (d_flags d)) eqn:Fm.
            -- destruct (pr_targets _ _ _ _ _ _ (co_pre _ _ _ _ _ _ OK) i d Hn) as [TM _]. destruct (TM Fm) as (_ & _ & X). destruct (b_multi p i); [discriminate|congruence].
            -- destruct (f_static (d_flags d)); discriminate.
          * rewrite Tgt; [destruct (dest t); reflexivity| |].
            -- intros _. exists c, st2. split; [reflexivity|exact Ec].
            -- intros j Hj'. rewrite Hs, Hj'. eauto.
    Qed.
  End J.
End Analysis.

Lemma commit_redirects rs p p' : commit_resolved rs p = Some p' -> b_redirects p' = b_redirects p.
Proof.
  unfold commit_resolved. intros E. destruct (recompute_reachable_shape _ _ E) as (_ & _ & _ & R0 & _). rewrite R0. clear E R0.
  generalize (existsb (fun ir => is_top (snd ir)) rs). intros bot. revert p. induction rs as [|[i r] rs IH]; intros p; cbn [fold_left]; [reflexivity|].
  rewrite IH. unfold commit_step. destruct (nth_error (b_insts p) i); [|reflexivity]. destruct (commit_one _ _ _ _ _). reflexivity.
Qed.
Lemma block_analysis_redirects env p local p' : b_redirects p = [] -> block_analysis env p local = Some p' -> b_redirects p' = [].
Proof.
  intros RD. unfold block_analysis. destruct (run_abstract_interp env p local) as [[[rs sn] used]|]; [|discriminate].
  destruct (_ || _).
  - destruct (commit_resolved rs (with_snaps p sn used)) eqn:E; [|discriminate]. intros H. injection H as <-. cbn.
    rewrite (commit_redirects _ _ _ E). exact RD.
  - intros H. injection H as <-. exact RD.
Qed.

(** Totality does not depend on executions: instantiate them with the one that stops at once. *)
Lemma analyze_total prog env : prog_ok prog (a_const env) (a_dest env) -> raw prog -> (forall x y, a_key env x = a_key env y -> x = y) ->
  analyze env prog <> None.
Proof.
  intros PO RAW KEY.
  set (sem := fun (_ : nat) (_ : list Z) (_ : unit) => @None (list Z * unit)).
  assert (SO : sem_ok prog (a_const env) sem (a_codelen env)) by (constructor; intros; discriminate).
  unfold analyze. pose proof (analyze_local_total prog env sem tt PO SO RAW) as T1.
  destruct (analyze_local env (initial prog)) as [p1|] eqn:E1; [|congruence].
  destruct (local_ok prog env sem tt PO SO RAW p1 E1) as [OK1 G1].
  unfold analyze_global.
  pose proof (block_analysis_total prog env sem tt PO KEY p1 OK1) as T2.
  destruct (block_analysis env p1 (b_snaps p1)) as [p2|] eqn:E2; [|congruence].
  apply refresh_total. eapply block_analysis_redirects; [|exact E2]. exact (pr_redir _ _ _ _ _ _ (co_pre _ _ _ _ _ _ OK1)).
Qed.

(** ** Non-convergence. *)
Lemma nonconverged_discards env p s rs sn u : let local := b_snaps p in run_fixpoint env p = (s, false) ->
  run_abstract_interp env p local = Some (rs, sn, u) ->
  (forall i, (i < length (b_insts p))%nat -> sn_in sn i = sn_in local i /\ sn_out sn i = sn_out local i) /\
  (forall i r, In (i, r) rs -> r = resolve_jump env (b_insts p) local i \/ r = weaken (b_insts p) local i (resolve_jump env (b_insts p) local i)).
Proof.
  cbn zeta. intros Ef H. unfold run_abstract_interp in H. rewrite Ef in H. rewrite orb_true_r in H.
  assert (FA : forall i, (i < length (b_insts p))%nat -> agree (restore_from (fx_snaps s) (seq 0 (length (b_insts p))) (b_snaps p)) (b_snaps p) i).
  { intros i Hi. eapply agree_trans; [apply restore_from_spec|].
    assert (E : existsb (Nat.eqb i) (seq 0 (length (b_insts p))) = true).
    { apply existsb_exists. exists i. split; [apply in_seq; lia|apply Nat.eqb_refl]. }
    rewrite E. split; reflexivity. }
  set (sn0 := restore_from (fx_snaps s) (seq 0 (length (b_insts p))) (b_snaps p)) in *. clearbody sn0.
  unfold invalidate in H. destruct (suspects p (fx_states s) (fx_disc s)) as [sus|]; [|discriminate].
  apply (f_equal (fun o => match o with Some x => x | None => (rs, sn, u) end)) in H. cbn match in H.
  apply pair_equal_spec in H as [H _]. apply pair_equal_spec in H as [Hr Hs]. split.
  - intros i Hi. rewrite <- Hs. destruct (restore_fold p sus (seq 0 (length (b_blocks p))) sn0 i) as [A1 A2]. rewrite A1, A2.
    destruct (existsb _ _); [split; reflexivity|]. exact (FA i Hi).
  - intros i r Hin. rewrite <- Hr, map_map in Hin. apply in_map_iff in Hin as (k & Ek & Hk).
    unfold jump_insts in Hk. apply filter_In in Hk as [Hk _]. apply in_seq in Hk.
    assert (ER : resolve_jump env (b_insts p) sn0 k = resolve_jump env (b_insts p) (b_snaps p) k).
    { unfold resolve_jump. destruct (FA k) as [-> _]; [lia|reflexivity]. }
    apply pair_equal_spec in Ek as [-> Er]. rewrite ER in Er.
    destruct (match inst_to_block p i with Some b => sus b | None => false end); [right|left]; symmetry; exact Er.
Qed.
