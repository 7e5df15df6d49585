(** Proofs for whole translated contracts: instruction by instruction, then block by block. *)
From Verif Require Import OpcodeSpec SectionsModel SectionsProof SummarySpec DseProof StructProof CfgProof ProgramProof FlowSpec BlockProof SummaryProof LinkProof VStackProof DseProps BlockProps SummaryProps JumpModel.
From Verif Require Import LocalProof WholeSpec WholeRun.
From Coq Require Import ZifyBool.
Import ListNotations.
Open Scope Z_scope.

(** ** Small facts. *)
Lemma upd_set_nth {A} (x : A) : forall l k, VStackModel.upd l k x = set_nth k x l.
Proof. induction l as [|a l IH]; intros [|k]; cbn; congruence. Qed.
Lemma set_nth_comm {A} (x y : A) : forall l a b, a <> b -> set_nth a x (set_nth b y l) = set_nth b y (set_nth a x l).
Proof. induction l as [|h l IH]; intros [|a] [|b] N; cbn; try congruence. rewrite IH by congruence. reflexivity. Qed.
Lemma exchange_swap st a b : (a < b < length st)%nat -> exchange a b st = Some (swap_nth st a b).
Proof.
  intros H. unfold exchange, swap_nth.
  rewrite (nth_error_nth' st 0) by lia. rewrite (nth_error_nth' st 0) by lia. rewrite !upd_set_nth, set_nth_comm by lia. reflexivity.
Qed.
Lemma pad_fall (l : list idata) i d : nth_error (pad_insts l) i = Some d -> can_fall_through d = true -> (S i < length (pad_insts l))%nat.
Proof.
  unfold pad_insts. intros H F.
  destruct (last (map Some l) None) as [dl|] eqn:E.
  - assert (NE : l <> []) by (intros ->; discriminate E). destruct (exists_last NE) as (l' & z & ->). rewrite map_app in E. cbn [map] in E. rewrite last_last in E. injection E as ->.
    destruct (can_fall_through dl) eqn:FD.
    + pose proof (nth_lt _ _ _ H) as LT. destruct (Nat.eq_dec (S i) (length ((l' ++ [dl]) ++ [stop_padding]))) as [EQ|NE']; [|lia]. exfalso.
      rewrite app_length in EQ. cbn [length] in EQ. rewrite nth_error_app2 in H by lia. replace (i - length (l' ++ [dl]))%nat with 0%nat in H by lia.
      injection H as <-. discriminate F.
    + pose proof (nth_lt _ _ _ H) as LT. destruct (Nat.eq_dec (S i) (length (l' ++ [dl]))) as [EQ|NE']; [|lia]. exfalso.
      rewrite app_length in EQ. cbn [length] in EQ. rewrite nth_error_app2 in H by lia. replace (i - length l')%nat with 0%nat in H by lia.
      injection H as <-. congruence.
  - pose proof (nth_lt _ _ _ H) as LT. destruct i as [|i]; [|destruct i; discriminate H].
    cbn in H. injection H as <-. discriminate F.
Qed.

Section Contract.
  Context {Y : Type} (info : Z -> opinfo) (stack_io : Z -> Z * Z) (key : Z -> Z) (lim : Z) (code : list Z) (env : aenv) (prog : list idata)
          (sem : nat -> list Z -> Y -> option (list Z * Y)) (fin : nat -> list Z -> Y -> Y) (y0 : Y).
  Variables (inspect istanbul : bool) (extra : nat -> Z) (p p' : bc) (V : nat -> vinst (wstate Y)).
  Notation const := (a_const env).
  Notation step := (evm_step prog (a_const env) (a_dest env) sem).
  Notation R := (reach prog (a_const env) (a_dest env) sem y0).
  Notation steps := (steps prog env sem).
  Notation P := (construct_sections (b_dyn p') istanbul extra (b_insts p')).
  Hypothesis SL : small_loaded info stack_io key lim code env prog.
  Hypothesis SO : sem_ok prog (a_const env) sem (a_codelen env).
  Hypothesis SH : shallow env prog sem y0.
  Hypothesis AN : analyze env prog = Some p.
  Hypothesis DE : dead_store_elim inspect (a_const env) p = Some p'.
  Hypothesis AL : forall i t, item_at (a_const env) p i = Some t -> aligned t.
  Hypothesis TR : forall b bl i, nth_error (b_blocks p') b = Some bl -> (bk_start bl <= i < bk_end bl)%nat ->
    translated env sem fin p' P i (V i).

  Lemma LD : loaded info stack_io key lim code env prog.
  Proof. exact (proj1 SL). Qed.
  Lemma CFG : cfg_ok prog (a_const env) (a_dest env) sem y0 p.
  Proof. exact (proj1 (sound_analysis info stack_io key lim code env prog sem y0 LD SO p SH AN)). Qed.
  Lemma PO : prog_ok prog (a_const env) (a_dest env).
  Proof. exact (proj1 (loaded_facts info stack_io key lim code env prog LD)). Qed.
  Lemma others : forall l, with_insts p l = with_insts p' l.
  Proof.
    destruct (small_refresh env prog p AN) as (p0 & RF).
    exact (proj1 (proj2 (C18_marks_only_stack_instructions inspect (a_const env) p0 p p' RF DE))).
  Qed.
  Lemma blocks' : b_blocks p' = b_blocks p. Proof. exact (eq_sym (f_equal b_blocks (others []))). Qed.
  Lemma snaps' : b_snaps p' = b_snaps p. Proof. exact (eq_sym (f_equal b_snaps (others []))). Qed.
  Lemma dyn' : b_dyn p' = b_dyn p. Proof. exact (eq_sym (f_equal b_dyn (others []))). Qed.
  Lemma multi' : b_multi p' = b_multi p. Proof. exact (eq_sym (f_equal b_multi (others []))). Qed.
  Lemma redir' : b_redirects p' = b_redirects p. Proof. exact (eq_sym (f_equal b_redirects (others []))). Qed.
  Lemma len' : length (b_insts p') = length (b_insts p).
  Proof. exact (proj1 (small_after _ _ _ _ _ _ _ SL inspect p p' AN DE)). Qed.
  (** Dead store elimination changes no-op marks only. *)
  Lemma inst' i d : nth_error (b_insts p) i = Some d -> exists d', nth_error (b_insts p') i = Some d' /\
    d_op d' = d_op d /\ d_io d' = d_io d /\ is_dead d' = is_dead d /\ f_disabled (d_flags d') = f_disabled (d_flags d) /\
    f_unknown (d_flags d') = f_unknown (d_flags d) /\ (is_branching d = true -> d' = d).
  Proof.
    intros H. destruct (nth_some (b_insts p') i) as [d' H']; [rewrite len'; eapply nth_lt; eauto|]. exists d'. split; [exact H'|].
    destruct (small_after _ _ _ _ _ _ _ SL inspect p p' AN DE) as (_ & _ & HA). destruct (HA i d' H') as (e & He & Q & _).
    assert (e = d) by congruence. subst e. destruct Q as [->|[-> NB]]; [auto 7|].
    repeat (split; [reflexivity|]). intros X. congruence.
  Qed.
  Lemma entry' i : effective_entry p' i = effective_entry p i.
  Proof.
    unfold effective_entry, effective_inst. rewrite redir'.
    destruct (nth_error (b_insts p) _) as [d|] eqn:E.
    - destruct (inst' _ _ E) as (d' & -> & _ & _ & -> & _). reflexivity.
    - apply nth_error_None in E. rewrite <- len' in E. apply nth_error_None in E. rewrite E. reflexivity.
  Qed.
  Lemma next' i : effective_next_entry p' i = effective_next_entry p i.
  Proof. unfold effective_next_entry, effective_inst. rewrite len', redir', entry'. reflexivity. Qed.
  Lemma switch' ts v : switch_pcs env p' ts v = switch_pcs env p ts v.
  Proof. induction ts as [|t ts IH]; cbn [switch_pcs]; [reflexivity|]. rewrite IH, entry'. reflexivity. Qed.
  Lemma table' : table_insts p' = table_insts p.
  Proof.
    unfold table_insts. rewrite len'. apply filter_ext_in. intros i Hi. apply in_seq in Hi.
    destruct (nth_some (b_insts p) i) as [d E]; [lia|]. rewrite E. destruct (inst' _ _ E) as (d' & -> & O & _ & D & _).
    unfold is_jumpdest. rewrite O, D. reflexivity.
  Qed.
  Lemma lower_jump' i d t c : lower_jump env p' i d t c = lower_jump env p i d t c.
  Proof. unfold lower_jump. rewrite multi', dyn', next', table', switch', entry'. destruct (b_multi p i); [rewrite switch'|]; reflexivity. Qed.

  (** An instruction of the loaded list, as the code generator sees it. *)
  Lemma final_inst i d0 : nth_error prog i = Some d0 -> exists d', nth_error (b_insts p') i = Some d' /\
    d_op d' = d_op d0 /\ d_io d' = d_io d0 /\ f_disabled (d_flags d') = f_disabled (d_flags d0) /\ f_unknown (d_flags d') = f_unknown (d_flags d0) /\
    (is_jump d0 = true -> nth_error (b_insts p) i = Some d').
  Proof.
    intros H0. destruct (pr_skel _ _ _ _ _ _ (co_pre _ _ _ _ _ _ CFG)) as [SK1 SK2].
    destruct (nth_some (b_insts p) i) as [d H]; [apply nth_lt in H0; lia|].
    destruct (SK2 i d0 d H0 H) as (E1 & E2 & E3 & E4 & _). destruct (inst' _ _ H) as (d' & H' & F1 & F2 & _ & F3 & F4 & F5).
    exists d'. split; [exact H'|]. repeat (split; [congruence|]). intros J. rewrite F5; [exact H|].
    unfold is_branching, is_jump. rewrite E1. unfold is_jump in J. rewrite J. reflexivity.
  Qed.
  Lemma step_exec i st y d : nth_error prog i = Some d -> (forall j st' y', evm_exec const (a_dest env) sem i d st y = Some (j, st', y') -> (length st' <= 1024)%nat) ->
    step i st y = evm_exec const (a_dest env) sem i d st y.
  Proof.
    intros H L. unfold evm_step. rewrite H. destruct (evm_exec _ _ _ _ _ _ _) as [[[j st'] y']|] eqn:E; [|reflexivity].
    specialize (L j st' y' eq_refl). apply Nat.leb_le in L. rewrite L. reflexivity.
  Qed.

  (** The translated instruction does what the EVM does. *)
  Definition agrees (i : nat) (st : list Z) (y : Y) (n : jnext) (d : idata) : Prop :=
    match step i st y with
    | Some (j, st', y') => estep (V i) (y, n) st = Some (ENext (y', if is_jump d then JGoto j else n) st')
    | None => exists n', estep (V i) (y, n) st = Some (EHalt (fin i (operands d st) y, n'))
    end.

  Lemma step_agrees i st y n d b bl : stack_fine d st -> R i st y -> nth_error prog i = Some d -> nth_error (b_blocks p') b = Some bl -> (bk_start bl <= i < bk_end bl)%nat ->
    agrees i st y n d.
  Proof.
    intros (NU0 & NO) HR H0 Hb Hi. assert (NU : (Z.to_nat (fst (d_io d)) <= length st)%nat) by lia. clear NU0.
    destruct (TR b bl i Hb Hi) as [(t & IT & LO & EV & _) BO _].
    destruct (final_inst i d H0) as (d' & H' & Eop & Eio & Edis & Eunk & Ejmp).
    unfold item_at in IT. rewrite H' in IT. injection IT as <-. cbn [it_d it_in] in EV.
    destruct LO as (LI & LO2 & _). cbn [it_d] in LI, LO2. rewrite Eio in LI, LO2.
    assert (VI : vi_in (V i) = Z.to_nat (fst (d_io d))) by lia.
    assert (LT : (length st <? vi_in (V i))%nat = false) by (apply Nat.ltb_ge; lia).
    assert (LEN : (length st <= 1024)%nat) by (eapply reach_len; eauto).
    unfold agrees, estep. rewrite LT, EV. unfold meaning. rewrite Edis, Eunk, Eop.
    pose proof (po_byte _ _ _ PO i d H0) as BY.
    destruct (f_disabled (d_flags d) || f_unknown (d_flags d)) eqn:Ef.
    { (* does not exist *)
      assert (S : step i st y = None) by (unfold evm_step; rewrite H0; unfold evm_exec; rewrite Ef; reflexivity). rewrite S.
      exists n. unfold ending, operands. cbn [fst snd]. rewrite VI.
      destruct (is_jump d); [|reflexivity]. rewrite (po_io_off _ _ _ PO i d H0 Ef). reflexivity. }
    destruct (po_io _ _ _ PO i d H0 Ef) as (I0 & O0 & IOpush & IOpop & IOdup & IOswap & IOdupn & IOswapn & IOexch & IOjump & IOjumpi & IOjd).
    destruct ((0x5f <=? d_op d) && (d_op d <=? 0x7f)) eqn:E1.
    { (* PUSH *)
      assert (IO : d_io d = (0, 1)) by (apply IOpush; lia). rewrite IO in NO. cbn [fst snd] in NO.
      assert (J : is_jump d = false) by (unfold is_jump, OP_JUMP, OP_JUMPI; lia).
      rewrite (step_exec i st y d H0); unfold evm_exec; rewrite Ef, E1; [|intros ? ? ? X; injection X as <- <- <-; cbn [length]; lia].
      rewrite J, VI, IO. reflexivity. }
    destruct ((d_op d =? 0x56) || (d_op d =? 0x57)) eqn:E2.
    { (* jumps *)
      assert (J : is_jump d = true) by exact E2. specialize (Ejmp J).
      assert (SJ : forall t st1, st = t :: st1 -> (d_op d' = 0x56 \/ (d_op d' = 0x57 /\ st1 <> [])) ->
        lower_jump env p i d' t (hd 0 st1) = Some match step i st y with Some (j, _, _) => JGoto j | None => JInvalidJump end).
      { intros t st1 Est Hop. exact (sound_jumps info stack_io key lim code env prog sem y0 LD SO p i st y d' t st1 CFG HR Ejmp Est Hop). }
      destruct (d_op d =? 0x56) eqn:E56.
      - assert (O : d_op d = 0x56) by lia. rewrite (IOjump O) in VI, NU. cbn [fst] in VI, NU. rewrite VI.
        change (Z.to_nat 1) with 1%nat in *. destruct st as [|t st1]; [cbn in NU; lia|].
        specialize (SJ t st1 eq_refl (or_introl (eq_trans Eop O))).
        assert (S : step i (t :: st1) y = match a_dest env t with Some j => Some (j, st1, y) | None => None end).
        { rewrite (step_exec i _ y d H0); unfold evm_exec; rewrite Ef, O; cbn -[length].
          - destruct (a_dest env t); reflexivity.
          - intros j st' y'. destruct (a_dest env t); [|discriminate]. intros X. injection X as _ <- _. cbn [length] in LEN. lia. }
        unfold jump_code. rewrite lower_jump'. cbn [firstn nth fst snd].
        assert (LJ : lower_jump env p i d' t 0 = lower_jump env p i d' t (hd 0 st1)).
        { unfold lower_jump. rewrite Eop, O. reflexivity. }
        rewrite LJ, SJ, J. rewrite S. destruct (a_dest env t) as [j|]; cbn [skipn app]; [reflexivity|].
        exists JInvalidJump. unfold operands. rewrite J. reflexivity.
      - assert (O : d_op d = 0x57) by lia. rewrite (IOjumpi O) in VI, NU. cbn [fst] in VI, NU. rewrite VI.
        change (Z.to_nat 2) with 2%nat in *. destruct st as [|t [|c st1]]; [cbn in NU; lia..|].
        specialize (SJ t (c :: st1) eq_refl (or_intror (conj (eq_trans Eop O) (fun X => nil_cons (eq_sym X))))).
        assert (S : step i (t :: c :: st1) y = if c =? 0 then Some (S i, st1, y) else match a_dest env t with Some j => Some (j, st1, y) | None => None end).
        { rewrite (step_exec i _ y d H0); unfold evm_exec; rewrite Ef, O; cbn -[length].
          - destruct (c =? 0); [reflexivity|]. destruct (a_dest env t); reflexivity.
          - cbn [length] in LEN. intros j st' y'. destruct (c =? 0); [intros X; injection X as _ <- _; lia|].
            destruct (a_dest env t); [|discriminate]. intros X. injection X as _ <- _. lia. }
        unfold jump_code. rewrite lower_jump'. cbn [firstn nth fst snd]. cbn [hd] in SJ.
        rewrite SJ, J. rewrite S. destruct (c =? 0); cbn [skipn app]; [reflexivity|].
        destruct (a_dest env t) as [j|]; cbn [skipn app]; [reflexivity|].
        exists JInvalidJump. unfold operands. rewrite J. reflexivity. }
    assert (J : is_jump d = false) by exact E2.
    destruct (existsb (Z.eqb (d_op d)) [0x00; 0xf3; 0xfd; 0xfe; 0xff]) eqn:E3.
    { (* the frame ends *)
      assert (S : step i st y = None).
      { unfold evm_step. rewrite H0. unfold evm_exec. rewrite Ef, E1. cbn [existsb] in E3.
        repeat (match goal with |- context [if ?b then _ else _] => first [replace b with false by lia|replace b with true by (symmetry; exact E3)] end). reflexivity. }
      rewrite S. exists n. unfold ending, operands. rewrite J, VI. reflexivity. }
    (* the rest: by the shape *)
    assert (EX : evm_exec const (a_dest env) sem i d st y =
      match shape_of (d_op d) (const i) with
      | ShDup k => match nth_error st (k - 1) with Some v => Some (S i, v :: st, y) | None => None end
      | ShSwap a c => keep (S i) y (exchange a c st)
      | ShBad => None
      | ShPop => match st with _ :: st' => Some (S i, st', y) | [] => None end
      | ShCall | ShOther => match sem i (firstn (Z.to_nat (fst (d_io d))) st) y with
                   | Some (outs, y') => Some (S i, outs ++ skipn (Z.to_nat (fst (d_io d))) st, y')
                   | None => None
                   end
      end).
    { assert (LT2 : (length st <? Z.to_nat (fst (d_io d)))%nat = false) by (apply Nat.ltb_ge; lia).
      apply orb_false_iff in E2 as [E5 E6].
      unfold evm_exec. rewrite Ef, E1, E3, E5, E6, LT2. unfold shape_of.
      destruct (d_op d =? 0x50) eqn:E50; [replace ((0x80 <=? d_op d) && (d_op d <=? 0x8f)) with false by lia; replace ((0x90 <=? d_op d) && (d_op d <=? 0x9f)) with false by lia;
        replace (d_op d =? 0xe6) with false by lia; replace (d_op d =? 0xe7) with false by lia; replace (d_op d =? 0xe8) with false by lia;
        replace (_ || _) with false by lia; reflexivity|].
      destruct ((0x80 <=? d_op d) && (d_op d <=? 0x8f)) eqn:E80; [replace (Z.to_nat (d_op d - 0x7f) - 1)%nat with (Z.to_nat (d_op d - 0x80)) by lia; reflexivity|].
      destruct ((0x90 <=? d_op d) && (d_op d <=? 0x9f)) eqn:E90; [reflexivity|].
      destruct (d_op d =? 0xe6); [destruct (eip_single (const i)); reflexivity|].
      destruct (d_op d =? 0xe7); [destruct (eip_single (const i)); reflexivity|].
      destruct (d_op d =? 0xe8); [destruct (eip_pair (const i)) as [[? ?]|]; reflexivity|].
      match goal with |- context [if ?b then ShCall else _] => destruct b end; reflexivity. }
    assert (SHP : match shape_of (d_op d) (const i) with
      | ShDup k => (1 <= k)%nat /\ d_io d = (Z.of_nat k, Z.of_nat k + 1)
      | ShSwap a c => (a < c)%nat /\ d_io d = (Z.of_nat c + 1, Z.of_nat c + 1)
      | ShPop => d_io d = (1, 0)
      | _ => True
      end).
    { unfold shape_of.
      destruct ((0x80 <=? d_op d) && (d_op d <=? 0x8f)) eqn:E80; [split; [lia|rewrite IOdup by lia; f_equal; lia]|].
      destruct ((0x90 <=? d_op d) && (d_op d <=? 0x9f)) eqn:E90; [split; [lia|rewrite IOswap by lia; f_equal; lia]|].
      destruct (d_op d =? 0xe6) eqn:E6.
      { destruct (decode_single_eip (const i) (BY ltac:(lia))) as [(k & _ & Ek & K)|[_ Ek]]; rewrite Ek; [|exact Logic.I]. split; [exact K|]. apply IOdupn; [lia|exact Ek]. }
      destruct (d_op d =? 0xe7) eqn:E7.
      { destruct (decode_single_eip (const i) (BY ltac:(lia))) as [(k & _ & Ek & K)|[_ Ek]]; rewrite Ek; [|exact Logic.I]. split; [lia|]. apply IOswapn; [lia|exact Ek]. }
      destruct (d_op d =? 0xe8) eqn:E8.
      { destruct (decode_pair_eip (const i) (BY ltac:(lia))) as [(k & m & _ & Ek & K)|[_ Ek]]; rewrite Ek; [|exact Logic.I]. split; [lia|]. eapply IOexch; [lia|exact Ek]. }
      match goal with |- context [if ?b then ShCall else _] => destruct b end; [exact Logic.I|]. destruct (d_op d =? 0x50) eqn:E50; [|exact Logic.I]. apply IOpop. lia. }
    clear IOpush IOpop IOdup IOswap IOdupn IOswapn IOexch IOjump IOjumpi IOjd BY E1 E2 E3 LI LO2 Ejmp BO.
    assert (OP : operands d st = firstn (vi_in (V i)) st) by (unfold operands; rewrite J, VI; reflexivity). rewrite OP, J.
    destruct (shape_of (d_op d) (const i)) as [k|a c| | | |].
    - destruct SHP as (K & IO). rewrite IO in NU, NO. cbn [fst snd] in NU, NO.
      rewrite (nth_error_nth' st 0) in EX by lia.
      rewrite (step_exec i st y d H0), EX; [reflexivity|]. rewrite EX. intros j st' y' X. injection X as _ <- _. cbn [length]. lia.
    - destruct SHP as (K & IO). rewrite IO in NU. cbn [fst snd] in NU. rewrite (exchange_swap st a c) in EX by lia. cbn [keep] in EX.
      rewrite (step_exec i st y d H0), EX; [reflexivity|]. rewrite EX. intros j st' y' X. injection X as _ <- _.
      unfold swap_nth. rewrite !upd_set_nth, !set_nth_length. exact LEN.
    - rewrite (step_exec i st y d H0), EX; [|rewrite EX; intros; discriminate]. exists n. reflexivity.
    - rewrite (step_exec i st y d H0), EX.
      + rewrite VI. cbn [fst snd]. destruct (sem i _ y) as [[outs y']|]; [reflexivity|]. exists n. reflexivity.
      + rewrite EX. destruct (sem i _ y) as [[outs y']|] eqn:ES; [|intros; discriminate]. intros j st' y2 X. injection X as _ <- _.
        destruct (so_len _ _ _ _ SO i d _ y outs y' H0 ES) as (L1 & _). rewrite app_length, skipn_length. lia.
    - rewrite SHP in NU, VI. cbn [fst] in NU, VI. rewrite VI. change (Z.to_nat 1) with 1%nat in *. destruct st as [|x st]; [cbn in NU; lia|]. cbn [length] in LEN.
      rewrite (step_exec i _ y d H0), EX; [reflexivity|]. rewrite EX. intros j st' y' X. injection X as _ <- _. lia.
    - rewrite (step_exec i st y d H0), EX.
      + rewrite VI. cbn [fst snd]. destruct (sem i _ y) as [[outs y']|]; [reflexivity|]. exists n. reflexivity.
      + rewrite EX. destruct (sem i _ y) as [[outs y']|] eqn:ES; [|intros; discriminate]. intros j st' y2 X. injection X as _ <- _.
        destruct (so_len _ _ _ _ SO i d _ y outs y' H0 ES) as (L1 & _). rewrite app_length, skipn_length. lia.
  Qed.

  (** Executions stay inside the list: its last instruction never falls through. *)
  Lemma step_inside i st y j st' y' : step i st y = Some (j, st', y') -> (j < length prog)%nat.
  Proof.
    intros H. assert (X : exists d, nth_error prog i = Some d) by (unfold evm_step in H; destruct (nth_error prog i); [eauto|discriminate H]). destruct X as (d & Hd).
    destruct (loaded_facts info stack_io key lim code env prog LD) as (_ & RAW & _ & _ & _ & NX).
    destruct (step_cases prog const (a_dest env) sem i st y j st' y' d Hd H) as (Ef & _ & He).
    destruct (exec_cases const (a_dest env) sem i d st y j st' y' He) as (_ & [(J & EO & ->)|[(_ & _ & t & _ & DT)|(O & _ & t & c & _ & [(_ & ->)|(_ & DT)])]]).
    - destruct LD as (_ & _ & _ & _ & LO). unfold load in LO. destruct (parse (active_of info) stack_io code) as [ps|]; [|discriminate LO].
      apply (f_equal (fun o => match o with Some x => snd x | None => prog end)) in LO. cbn match in LO. cbn [snd] in LO. rewrite <- LO in Hd |- *.
      apply (pad_fall _ i d Hd). rewrite LO in Hd. destruct (RAW i d Hd) as (_ & _ & _ & FC & _).
      unfold can_fall_through, is_diverging, has_const_jumpi_condition. unfold is_jump in J. apply orb_false_iff in J as [J1 J2]. apply orb_false_iff in Ef as [E1 E2].
      unfold ends_op in EO. rewrite J1, J2, E1, E2, EO. reflexivity.
    - destruct (po_dest _ _ _ PO _ _ DT) as (dj & Hj & _). exact (nth_lt _ _ _ Hj).
    - exact (NX i d Hd O).
    - destruct (po_dest _ _ _ PO _ _ DT) as (dj & Hj & _). exact (nth_lt _ _ _ Hj).
  Qed.

  (** What the analysis promises holds. *)
  Lemma fact_holds i st y d b bl : stack_fine d st -> R i st y -> nth_error prog i = Some d -> nth_error (b_blocks p') b = Some bl -> (bk_start bl <= i < bk_end bl)%nat ->
    vi_fact (V i) (firstn (vi_in (V i)) st).
  Proof.
    intros (NU0 & _) HR H0 Hb Hr. assert (NU : (Z.to_nat (fst (d_io d)) <= length st)%nat) by lia. clear NU0. assert (Hi : (i < length prog)%nat) by (eapply nth_lt; eauto). destruct (TR b bl i Hb Hr) as [(t & IT & LO & _ & FA) _ _].
    destruct (final_inst i d H0) as (d' & H' & _ & Eio & _). unfold item_at in IT. rewrite H' in IT. injection IT as <-. cbn [it_in] in FA.
    apply FA. intros depth k SK. destruct LO as (LI & _). cbn [it_d] in LI. rewrite Eio in LI.
    rewrite snaps' in SK.
    assert (DL : (depth < vi_in (V i))%nat).
    { destruct (pr_skel _ _ _ _ _ _ (co_pre _ _ _ _ _ _ CFG)) as [SK1 SK2].
      destruct (nth_some (b_insts p) i) as [e He]; [lia|]. destruct (SK2 i d e H0 He) as (_ & E2 & _).
      assert (IT : item_at const p i = Some (mkI e (const i) (sn_in (b_snaps p) i) (sn_out (b_snaps p) i))) by (unfold item_at; rewrite He; reflexivity).
      pose proof (AL i _ IT) as A. unfold aligned in A. cbn [it_in it_d] in A. rewrite E2 in A.
      unfold snap_const in SK. destruct (nth_error (rev (sn_in (b_snaps p) i)) depth) as [a|] eqn:EA; [|discriminate SK].
      apply nth_lt in EA. rewrite rev_length in EA. destruct A as [A|A]; [rewrite A in EA; cbn in EA; lia|lia]. }
    assert (NE : nth_error st depth = Some k).
    { apply (C13_operand_partial info stack_io key lim code env prog sem y0 LD SO p i st y depth k SH AN HR Hi); [|lia].
      unfold const_operand. exact SK. }
    assert (NF : nth_error (firstn (vi_in (V i)) st) depth = Some k).
    { rewrite <- (firstn_skipn (vi_in (V i)) st) in NE. rewrite nth_error_app1 in NE; [exact NE|]. rewrite firstn_length. lia. }
    apply nth_error_nth with (d := 0) in NF. exact NF.
  Qed.

  Lemma steps_reach n s s' : steps n s s' -> R (fst (fst s)) (snd (fst s)) (snd s) -> R (fst (fst s')) (snd (fst s')) (snd s').
  Proof.
    induction 1 as [s|n i st y s s' H ST IH]; [auto|]. intros HR. apply IH. destruct s as [[j st'] y']. exact (reach_step _ _ _ _ _ _ _ _ _ _ _ HR H).
  Qed.

  (** An executed instruction changes the height as the table says. *)
  Lemma step_len i d st y j st' y' : nth_error prog i = Some d -> step i st y = Some (j, st', y') ->
    stack_fine d st /\ Z.of_nat (length st') = Z.of_nat (length st) - fst (d_io d) + snd (d_io d).
  Proof.
    intros Hd H. destruct (step_cases prog const (a_dest env) sem i st y j st' y' d Hd H) as (_ & L & He).
    destruct (exec_len prog env sem PO SO i d d st y j st' y' Hd ltac:(repeat split) He) as (_ & _ & A & B). unfold stack_fine. lia.
  Qed.
  Lemma stack_fine_dec d st : {stack_fine d st} + {~ stack_fine d st}.
  Proof.
    destruct ((fst (d_io d) <=? Z.of_nat (length st)) && (Z.of_nat (length st) - fst (d_io d) + snd (d_io d) <=? 1024)) eqn:E; [left|right]; unfold stack_fine; lia.
  Qed.

  (** If the rest of a section does not fit, the execution ends inside it, and not well. *)
  Notation sec k := (sect (b_dyn p') istanbul true (skipn k (b_insts p'))).
  Lemma section_fails n : forall k st y slo L0, (length prog - k <= n)%nat -> (k < length prog)%nat -> R k st y -> Z.of_nat (length st) = L0 + slo -> 0 <= L0 <= 1024 ->
    ~ (deepest (sec k) slo <= L0 /\ L0 + highest (sec k) slo <= 1024) ->
    exists m i' st' y', steps m (k, st, y) (i', st', y') /\ exceptional prog env sem i' st' y'.
  Proof.
    induction n as [|n IH]; intros k st y slo L0 LE LT HR EL HL F; [lia|].
    destruct (nth_some prog k LT) as (d & H0). destruct (final_inst k d H0) as (d' & H' & Eop & Eio & Edis & Eunk & _).
    assert (D : is_dead d' = false).
    { destruct (pr_skel _ _ _ _ _ _ (co_pre _ _ _ _ _ _ CFG)) as [SK1 _]. destruct (nth_some (b_insts p) k) as (e & He); [lia|].
      destruct (inst' k e He) as (e' & He' & _ & _ & X & _). assert (e' = d') by congruence. subst e'. rewrite X.
      exact (pr_live _ _ _ _ _ _ (co_pre _ _ _ _ _ _ CFG) k st y e HR He). }
    rewrite (SectionsProof.skipn_cons _ k d' H') in F. rewrite sect_live in F by exact D. rewrite Eio in F.
    destruct (stack_fine_dec d st) as [SF|SF].
    2:{ exists 0%nat, k, st, y. split; [constructor|]. split; [|exists d; auto].
        destruct (step k st y) as [[[j st'] y']|] eqn:ES; [|reflexivity]. destruct (step_len k d st y j st' y' H0 ES). contradiction. }
    unfold stack_fine in SF. destruct (d_io d) as [a o] eqn:EI. cbn [deepest highest fst snd] in F, SF.
    destruct (ends_section istanbul d' || stops (b_dyn p') (skipn (S k) (b_insts p'))) eqn:ES; [cbn [deepest highest] in F; lia|].
    apply orb_false_iff in ES as [ES _]. unfold ends_section in ES. apply orb_false_iff in ES as [ES _]. apply orb_false_iff in ES as [_ ES].
    unfold is_branching in ES. apply orb_false_iff in ES as [EJ ED]. unfold is_diverging in ED. apply orb_false_iff in ED as [_ ED].
    destruct (step k st y) as [[[j st'] y']|] eqn:EST.
    - destruct (step_len k d st y j st' y' H0 EST) as (_ & SL'). rewrite EI in SL'. cbn [fst snd] in SL'.
      destruct (step_cases prog const (a_dest env) sem k st y j st' y' d H0 EST) as (_ & _ & He).
      assert (j = S k).
      { destruct (exec_cases const (a_dest env) sem k d st y j st' y' He) as (_ & [(_ & _ & ->)|[(O & _)|(O & _)]]); [reflexivity| |];
          unfold is_jump in EJ; rewrite Eop, O in EJ; discriminate EJ. }
      subst j. pose proof (reach_step _ _ _ _ _ _ _ _ _ _ _ HR EST) as HR'. pose proof (step_inside k st y _ st' y' EST) as LT'.
      destruct (IH (S k) st' y' (slo - a + o) L0) as (m & i2 & st2 & y2 & S2 & X2); [lia|exact LT'|exact HR'|lia|exact HL|lia|].
      exists (S m), i2, st2, y2. split; [econstructor; [exact EST|exact S2]|exact X2].
    - exists 0%nat, k, st, y. split; [constructor|]. split; [exact EST|]. exists d. split; [exact H0|]. right. right.
      rewrite Eop in ED. unfold OP_STOP, OP_RETURN, OP_REVERT, OP_INVALID, OP_SELFDESTRUCT in ED. cbn [existsb]. lia.
  Qed.
  (** The check at a head is about the section that starts there. *)
  Lemma head_section b bl i a g : nth_error (b_blocks p') b = Some bl -> (bk_start bl <= i < bk_end bl)%nat -> vi_head (V i) = Some (a, g) ->
    Z.of_nat a = deepest (sec i) 0 /\ Z.of_nat g = highest (sec i) 0.
  Proof.
    intros Hb Hi HV. destruct (tr_head _ _ _ _ _ _ _ (TR b bl i Hb Hi)) as (d' & Hd' & HD & _). unfold headed in HD. rewrite HV in HD.
    destruct (f_head (d_flags d')) eqn:FH; [|discriminate HD]. injection HD as -> ->.
    destruct (small_after _ _ _ _ _ _ _ SL inspect p p' AN DE) as (_ & _ & HA).
    pose proof (small_io _ _ _ _ _ _ _ SL inspect p p' AN DE) as IO.
    assert (FR : forall i d, nth_error (b_insts p') i = Some d -> f_head (d_flags d) = false) by (intros k e He; destruct (HA k e He) as (_ & _ & _ & _ & X & _); exact X).
    apply (head_iff (b_dyn p') istanbul extra (b_insts p') IO FR i d' Hd') in FH.
    destruct (head_exact (b_dyn p') istanbul extra (b_insts p') i d' IO FH Hd') as (_ & ->). cbn [fst snd].
    pose proof (small_fits _ _ _ _ _ _ _ SL inspect p p' istanbul (b_dyn p') AN DE i) as (F1 & F2).
    pose proof (deepest_nonneg (sec i) 0). pose proof (highest_nonneg (sec i) 0). lia.
  Qed.

  (** A block, from instruction [i] on. *)
  Lemma block_run b bl : nth_error (b_blocks p') b = Some bl -> forall k i st y slo inp gr, (i + S k = bk_end bl)%nat -> (bk_start bl <= i)%nat -> R i st y ->
    let vs := map V (seq i (S k)) in let w := (y, fall p' bl) in
    fits slo inp gr vs -> (vi_head (V i) = None -> exists L0, inp <= L0 /\ L0 + gr <= 1024 /\ Z.of_nat (length st) = L0 + slo) ->
    kfacts vs w st /\
    ((exists m j st' y' b' bl', steps (S m) (i, st, y) (j, st', y') /\ nth_error (b_blocks p') b' = Some bl' /\ bk_start bl' = j /\
        kerun vs w st = Some (KRes (ENext (y', JGoto j) st'))) \/
     (exists m i' st' y' d' yf n, steps m (i, st, y) (i', st', y') /\ ends_at prog env sem fin i' st' y' yf /\ nth_error prog i' = Some d' /\ stack_fine d' st' /\
        kerun vs w st = Some (KRes (EHalt (yf, n)))) \/
     (exists m i' st' y', steps m (i, st, y) (i', st', y') /\ exceptional prog env sem i' st' y' /\ kerun vs w st = Some KStack)).
  Proof.
    intros Hb. induction k as [|k IH]; intros i st y slo inp gr HE HS HR; cbn zeta; intros FT HSEC.
    all: assert (Hr : (bk_start bl <= i < bk_end bl)%nat) by lia.
    all: pose proof Hb as Hb0; rewrite blocks' in Hb0.
    all: pose proof (block_bounds prog const (a_dest env) sem y0 p CFG b bl Hb0) as BB.
    all: destruct (pr_skel _ _ _ _ _ _ (co_pre _ _ _ _ _ _ CFG)) as [SK1 SK2].
    all: assert (Hi : (i < length prog)%nat) by lia.
    all: destruct (nth_some prog i Hi) as (d & H0).
    all: assert (LEN : (length st <= 1024)%nat) by (eapply reach_len; eauto).
    all: cbn [seq map kfacts kerun].
    all: destruct (head_fails (V i) (Z.of_nat (length st))) eqn:HF.
    (* the check fails *)
    1,3: split; [discriminate|]; right; right; unfold head_fails in HF; destruct (vi_head (V i)) as [[a g]|] eqn:VH; [|discriminate HF];
         destruct (head_section b bl i a g Hb Hr VH) as (EA & EG);
         destruct (section_fails (length prog - i) i st y 0 (Z.of_nat (length st)) (Nat.le_refl _) Hi HR) as (m & i2 & st2 & y2 & S2 & X2); [lia|lia| |exists m, i2, st2, y2; auto];
         rewrite <- EA, <- EG; intros X; apply (check_passes a g (Z.of_nat (length st))) in X; [rewrite X in HF; discriminate HF|lia].
    (* it passes: the instruction has room *)
    all: destruct (room _ _ (Z.of_nat (length st)) slo inp gr FT HF ltac:(lia) HSEC) as (L0 & slo1 & inp1 & gr1 & Q1 & Q2 & Q3 & Q4 & Q5 & FT').
    all: assert (SF : stack_fine d st /\ Z.of_nat (vi_in (V i)) = fst (d_io d) /\ Z.of_nat (vi_out (V i)) = snd (d_io d))
         by (destruct (tr_low _ _ _ _ _ _ _ (TR b bl i Hb Hr)) as (t & IT & (LI & LO2 & _) & _); destruct (final_inst i d H0) as (d' & H' & _ & Eio & _);
             unfold item_at in IT; rewrite H' in IT; injection IT as <-; cbn [it_d] in LI, LO2; rewrite Eio in LI, LO2; unfold stack_fine; lia).
    all: destruct SF as (SF & VI & VO).
    all: pose proof (fact_holds i st y d b bl SF HR H0 Hb Hr) as FA.
    all: pose proof (step_agrees i st y (fall p' bl) d b bl SF HR H0 Hb Hr) as AG; unfold agrees in AG.
    all: destruct (step i st y) as [[[j st'] y']|] eqn:ES.
    2,4: destruct AG as (n' & AG); rewrite AG; (split; [intros _; split; [exact FA|exact Logic.I]|]); right; left;
         exists 0%nat, i, st, y, d, (fin i (operands d st) y), n'; (split; [constructor|]); (split; [split; [exact ES|]; exists d; split; [exact H0|reflexivity]|]); auto.
    all: pose proof (reach_step _ _ _ _ _ _ _ _ _ _ _ HR ES) as HR'.
    all: pose proof (step_inside i st y j st' y' ES) as Hj.
    all: destruct (step_len i d st y j st' y' H0 ES) as (_ & LEN').
    all: destruct (nth_some (b_insts p) j) as (dj & Hdj); [lia|].
    all: destruct (step_block prog const (a_dest env) sem y0 (po_dest _ _ _ PO) p CFG i st y j st' y' b bl dj HR ES Hb0 Hr Hdj) as (e & He & _ & C).
    all: assert (EJ : is_jump e = is_jump d) by (destruct (SK2 i d e H0 He) as (E1 & _); unfold is_jump; rewrite E1; reflexivity).
    all: rewrite AG.
    - (* last instruction of the block *)
      split; [intros _; split; [exact FA|exact Logic.I]|]. left.
      destruct C as [(C & _)|(_ & b' & bl' & Hb' & Est & C)]; [lia|].
      exists 0%nat, j, st', y', b', bl'. split; [econstructor; [exact ES|constructor]|]. split; [rewrite blocks'; exact Hb'|]. split; [exact Est|].
      destruct (is_jump d) eqn:J; [reflexivity|]. destruct C as [(-> & _)|(_ & C & _)]; [|congruence].
      do 4 f_equal. unfold fall, terminator. rewrite next'. unfold effective_next_entry.
      pose proof (pr_redir _ _ _ _ _ _ (co_pre _ _ _ _ _ _ CFG)) as RD.
      replace (S (bk_end bl - 1)) with (S i) by lia.
      assert (LB : (S i <? length (b_insts p))%nat = true) by (apply Nat.ltb_lt; lia). rewrite LB.
      unfold effective_entry, effective_inst. rewrite RD. cbn [lookup]. rewrite Hdj.
      rewrite (pr_live _ _ _ _ _ _ (co_pre _ _ _ _ _ _ CFG) (S i) st' y' dj HR' Hdj). reflexivity.
    - destruct C as [(_ & -> & J)|(C & _)]; [|lia]. rewrite EJ in J. rewrite J.
      destruct (IH (S i) st' y' _ inp1 gr1 ltac:(lia) ltac:(lia) HR' FT') as (F2 & R2); [intros _; exists L0; repeat split; lia|].
      split; [intros _; split; [exact FA|exact F2]|].
      destruct R2 as [(m & j & st2 & y2 & b' & bl' & S2 & B2 & E2 & ER)|[(m & i2 & st2 & y2 & d2 & yf & n & S2 & EN & D2 & SF2 & ER)|(m & i2 & st2 & y2 & S2 & X2 & ER)]].
      + left. exists (S m), j, st2, y2, b', bl'. split; [econstructor; [exact ES|exact S2]|]. auto.
      + right. left. exists (S m), i2, st2, y2, d2, yf, n. split; [econstructor; [exact ES|exact S2]|]. auto.
      + right. right. exists (S m), i2, st2, y2. split; [econstructor; [exact ES|exact S2]|]. auto.
  Qed.

  (** The code of a block, entered with the stack in memory. *)
  Lemma items_total n : forall q s, (s + n <= length (b_insts q))%nat -> exists l, items_at const q (seq s n) = Some l.
  Proof.
    induction n as [|n IH]; intros q s L; cbn [seq items_at]; [eauto|]. destruct (nth_some (b_insts q) s) as (d & H); [lia|].
    unfold item_at. rewrite H. destruct (IH q (S s) ltac:(lia)) as (l & ->). eauto.
  Qed.
  Lemma block_compiled b bl st y c : nth_error (b_blocks p') b = Some bl -> R (bk_start bl) st y -> in_memory c st ->
    (exists m j st' y' b' bl' c', steps (S m) (bk_start bl, st, y) (j, st', y') /\ nth_error (b_blocks p') b' = Some bl' /\ bk_start bl' = j /\
       krun (map V (blk_insts bl)) true (y, fall p' bl) c = Some (KRes (RNext (y', JGoto j) c')) /\ in_memory c' st') \/
    (exists m i' st' y' d' yf n, steps m (bk_start bl, st, y) (i', st', y') /\ ends_at prog env sem fin i' st' y' yf /\ nth_error prog i' = Some d' /\ stack_fine d' st' /\
       krun (map V (blk_insts bl)) true (y, fall p' bl) c = Some (KRes (RHalt (yf, n)))) \/
    (exists m i' st' y', steps m (bk_start bl, st, y) (i', st', y') /\ exceptional prog env sem i' st' y' /\
       krun (map V (blk_insts bl)) true (y, fall p' bl) c = Some KStack).
  Proof.
    intros Hb HR IM. pose proof Hb as Hb0. rewrite blocks' in Hb0.
    pose proof (block_bounds prog const (a_dest env) sem y0 p CFG b bl Hb0) as BB.
    destruct (items_total (bk_end bl - bk_start bl) p (bk_start bl)) as (l & IL); [lia|].
    destruct (items_total (bk_end bl - bk_start bl) p' (bk_start bl)) as (l' & IL'); [rewrite len'; lia|].
    assert (FAL : Forall aligned l).
    { apply Forall_forall. intros t Ht. apply In_nth_error in Ht as (k & Hk). apply items_spec in IL as (L0 & HI).
      pose proof (nth_lt _ _ _ Hk). rewrite HI in Hk by lia. exact (AL _ t Hk). }
    assert (NV : forall k v, nth_error (map V (blk_insts bl)) k = Some v -> v = V (bk_start bl + k) /\ (k < bk_end bl - bk_start bl)%nat).
    { intros k v Hk. rewrite nth_error_map in Hk. unfold blk_insts in Hk. destruct (nth_error (seq _ _) k) as [q|] eqn:Eq; [|discriminate Hk].
      injection Hk as <-. pose proof (nth_lt _ _ _ Eq) as Lq. rewrite seq_length in Lq. split; [|exact Lq]. f_equal.
      apply nth_error_nth with (d := 0%nat) in Eq. rewrite seq_nth in Eq by exact Lq. congruence. }
    assert (LOW : Forall2 lowered l' (map V (blk_insts bl))).
    { pose proof IL' as X. apply items_spec in X as (L0 & HI).
      assert (G : forall n s l2, (bk_start bl <= s)%nat -> (s + n <= bk_end bl)%nat -> length l2 = n -> (forall k, (k < n)%nat -> nth_error l2 k = item_at const p' (s + k)) ->
                  Forall2 lowered l2 (map V (seq s n))).
      { induction n as [|n IHn]; intros s l2 S1 S2 LL HH; destruct l2 as [|t l2]; try discriminate LL; cbn [seq map]; [constructor|].
        constructor.
        - specialize (HH 0%nat ltac:(lia)). cbn [nth_error] in HH. rewrite Nat.add_0_r in HH.
          destruct (TR b bl s Hb ltac:(lia)) as [(t' & IT & LO & _) _ _]. assert (t' = t) by congruence. subst t'. exact LO.
        - apply IHn; [lia|lia|cbn in LL; lia|]. intros k Hk. specialize (HH (S k) ltac:(lia)). cbn [nth_error] in HH. rewrite HH. f_equal. lia. }
      apply G; [lia|lia|exact L0|exact HI]. }
    assert (OKS : Forall (fun v => inst_ok (unmark v)) (map V (blk_insts bl))).
    { apply Forall_forall. intros v Hv. apply In_nth_error in Hv as (k & Hk). destruct (NV k v Hk) as (-> & K).
      exact (tr_body _ _ _ _ _ _ _ (TR b bl (bk_start bl + k) Hb ltac:(lia))). }
    assert (HDS : forall k v, nth_error (map V (blk_insts bl)) k = Some v -> exists d, nth_error P (bk_start bl + k) = Some d /\ headed d v /\ leaves_by_opcode d v).
    { intros k v Hk. destruct (NV k v Hk) as (-> & K). exact (tr_head _ _ _ _ _ _ _ (TR b bl (bk_start bl + k) Hb ltac:(lia))). }
    assert (IN : In bl (b_blocks p)) by (exact (nth_error_In _ _ Hb0)).
    destruct (contract_parts info stack_io key lim code env prog inspect istanbul extra p p' bl l l' (map V (blk_insts bl)) SL AN DE IN IL IL' LOW HDS) as (_ & _ & _ & _ & _ & FIT & SHD & _).
    destruct (block_run b bl Hb (bk_end bl - bk_start bl - 1) (bk_start bl) st y 0 0 0) as (FH & C); [lia|lia|exact HR| | |].
    { replace (S (bk_end bl - bk_start bl - 1)) with (bk_end bl - bk_start bl)%nat by lia. exact FIT. }
    { unfold blk_insts in SHD. replace (bk_end bl - bk_start bl)%nat with (S (bk_end bl - bk_start bl - 1)) in SHD by lia. cbn [seq map starts_head] in SHD. unfold is_head in SHD.
      intros X. rewrite X in SHD. discriminate SHD. }
    replace (S (bk_end bl - bk_start bl - 1)) with (bk_end bl - bk_start bl)%nat in FH, C by lia.
    change (seq (bk_start bl) (bk_end bl - bk_start bl)) with (blk_insts bl) in FH, C.
    assert (BLK := fun r ER => kcontract info stack_io key lim code env prog inspect istanbul extra p p' bl l l' _ _ c st r
        SL AN DE IN IL IL' FAL LOW OKS HDS IM FH ER).
    destruct C as [(m & j & st' & y' & b' & bl' & S2 & B2 & E2 & ER)|[(m & i' & st' & y' & d' & yf & n & S2 & EN & D2 & SF & ER)|(m & i' & st' & y' & S2 & X2 & ER)]].
    - left. destruct (BLK _ ER) as (c' & V1 & V2). exists m, j, st', y', b', bl', c'. auto 6.
    - right. left. exists m, i', st', y', d', yf, n. do 4 (split; [assumption|]). exact (BLK _ ER).
    - right. right. exists m, i', st', y'. do 2 (split; [assumption|]). exact (BLK _ ER).
  Qed.

  Lemma find_block b bl : nth_error (b_blocks p') b = Some bl -> find (fun x => (bk_start x =? bk_start bl)%nat) (b_blocks p') = Some bl.
  Proof.
    intros Hb. destruct (find _ (b_blocks p')) as [x|] eqn:E.
    - apply find_some in E as (IN & E). apply Nat.eqb_eq in E. apply In_nth_error in IN as (b' & Hb'). f_equal. rewrite blocks' in Hb, Hb'.
      pose proof (block_bounds prog const (a_dest env) sem y0 p CFG b bl Hb). pose proof (block_bounds prog const (a_dest env) sem y0 p CFG b' x Hb').
      destruct (block_unique prog const (a_dest env) sem y0 p CFG b' x b bl (bk_start bl) Hb' Hb); [lia|lia|assumption].
    - exfalso. apply find_none with (x := bl) in E; [|exact (nth_error_In _ _ Hb)]. rewrite Nat.eqb_refl in E. discriminate E.
  Qed.

  (** The state of the compiled code corresponds to a state of the EVM. *)
  Definition tracks (s : cstate Y) : Prop :=
    match s with
    | CRun k y c => exists b bl st, nth_error (b_blocks p') b = Some bl /\ k = JGoto (bk_start bl) /\ R (bk_start bl) st y /\ in_memory c st
    | CDone yf => exists i st y d, R i st y /\ ends_at prog env sem fin i st y yf /\ nth_error prog i = Some d /\ stack_fine d st
    | CFail => exists i st y, R i st y /\ exceptional prog env sem i st y
    end.
  Lemma start_tracks c : in_memory c [] -> tracks (CRun (JGoto 0) y0 c).
  Proof.
    intros IM. assert (NE : exists d, nth_error (b_insts p) 0 = Some d).
    { apply nth_some. destruct (pr_skel _ _ _ _ _ _ (co_pre _ _ _ _ _ _ CFG)) as [SK1 _]. rewrite SK1.
      destruct LD as (_ & _ & _ & _ & LO). unfold load in LO. destruct (parse (active_of info) stack_io code) as [ps|]; [|discriminate LO].
      apply (f_equal (fun o => match o with Some x => snd x | None => prog end)) in LO. cbn match in LO. cbn [snd] in LO. rewrite <- LO.
      unfold pad_insts. destruct (map (idata_of info) (p_insts ps)) as [|x l]; [cbn; lia|]. destruct (last _ None); [destruct (can_fall_through _)|]; try rewrite app_length; cbn [length]; lia. }
    destruct NE as (d & Hd). destruct (block_zero prog const (a_dest env) sem y0 p CFG d Hd) as (bl & Hb & E).
    exists 0%nat, bl, []. rewrite blocks', E. split; [exact Hb|]. split; [reflexivity|]. split; [constructor|exact IM].
  Qed.
  Lemma step_tracks s : tracks s -> exists s', cstep p' V s = Some s' /\ tracks s'.
  Proof.
    destruct s as [k y c|yf|]; [|intros T; exists (CDone yf); split; [reflexivity|exact T]|intros T; exists CFail; split; [reflexivity|exact T]].
    intros (b & bl & st & Hb & -> & HR & IM). cbn [cstep]. rewrite (find_block b bl Hb).
    destruct (block_compiled b bl st y c Hb HR IM) as [(m & j & st' & y' & b' & bl' & c' & S2 & B2 & E2 & V1 & V2)|[(m & i' & st' & y' & d' & yf & n & S2 & EN & D2 & SF & V1)|(m & i' & st' & y' & S2 & X2 & V1)]]; rewrite V1; cbn [fst snd].
    - eexists. split; [reflexivity|]. exists b', bl', st'. split; [exact B2|]. split; [rewrite E2; reflexivity|]. rewrite E2. split; [exact (steps_reach _ _ _ S2 HR)|exact V2].
    - eexists. split; [reflexivity|]. exists i', st', y', d'. split; [exact (steps_reach _ _ _ S2 HR)|auto].
    - eexists. split; [reflexivity|]. exists i', st', y'. split; [exact (steps_reach _ _ _ S2 HR)|exact X2].
  Qed.
  Lemma run_tracks n : forall s, tracks s -> exists s', crun p' V n s = Some s' /\ tracks s'.
  Proof.
    induction n as [|n IH]; intros s T; cbn [crun]; [eauto|]. destruct (step_tracks s T) as (s1 & -> & T1). exact (IH s1 T1).
  Qed.

  (** From a tracked state, an execution of the EVM that ends is finished by the compiled code. *)
  Lemma steps_det n : forall s s1 s2 m, steps n s s1 -> steps (n + m) s s2 -> steps m s1 s2.
  Proof.
    induction n as [|n IH]; intros s s1 s2 m H1 H2; inversion H1; subst; [exact H2|]. cbn [Nat.add] in H2. inversion H2; subst.
    match goal with A : step _ _ _ = Some ?a, B : step _ _ _ = Some ?b |- _ => assert (X : a = b) by congruence; subst b end. eapply IH; eauto.
  Qed.
  Lemma steps_split n : forall s s2 m, steps (n + m) s s2 -> exists s1, steps n s s1 /\ steps m s1 s2.
  Proof.
    induction n as [|n IH]; intros s s2 m H; cbn [Nat.add] in H; [exists s; split; [constructor|exact H]|].
    inversion H; subst. match goal with A : steps (n + m) ?a _ |- _ => destruct (IH _ _ _ A) as (s1 & X1 & X2) end. exists s1. split; [econstructor; eauto|exact X2].
  Qed.
  (** Ends are where no step is possible, so an execution that ends has exactly one end. *)
  Lemma end_unique n m s i st y i' st' y' : steps n s (i, st, y) -> step i st y = None -> steps m s (i', st', y') -> step i' st' y' = None ->
    n = m /\ i' = i /\ st' = st /\ y' = y.
  Proof.
    intros S1 E1 S2 E2. destruct (Nat.lt_trichotomy n m) as [L|[->|L]].
    - exfalso. replace m with (n + S (m - n - 1))%nat in S2 by lia. pose proof (steps_det _ _ _ _ _ S1 S2) as X. inversion X; subst. congruence.
    - split; [reflexivity|]. pose proof (steps_det m _ _ _ 0 S1 ltac:(rewrite Nat.add_0_r; exact S2)) as X. inversion X; subst. auto.
    - exfalso. replace n with (m + S (n - m - 1))%nat in S1 by lia. pose proof (steps_det _ _ _ _ _ S2 S1) as X. inversion X; subst. congruence.
  Qed.
  Lemma finishes N : forall n b bl st y c i st' y' yf d, (n <= N)%nat -> nth_error (b_blocks p') b = Some bl -> R (bk_start bl) st y -> in_memory c st ->
    steps n (bk_start bl, st, y) (i, st', y') -> ends_at prog env sem fin i st' y' yf -> nth_error prog i = Some d ->
    exists k, (k <= S n)%nat /\
    (crun p' V k (CRun (JGoto (bk_start bl)) y c) = Some (CDone yf) /\ stack_fine d st' \/
     crun p' V k (CRun (JGoto (bk_start bl)) y c) = Some CFail /\ exceptional prog env sem i st' y').
  Proof.
    induction N as [|N IH]; intros n b bl st y c i st' y' yf d LE Hb HR IM ST EN Hd.
    all: destruct (block_compiled b bl st y c Hb HR IM) as [(m & j & st2 & y2 & b' & bl' & c' & S2 & B2 & E2 & V1 & V2)|[(m & i2 & st2 & y2 & d2 & yf2 & nx & S2 & EN2 & D2 & SF & V1)|(m & i2 & st2 & y2 & S2 & X2 & V1)]].
    2,5: destruct (end_unique _ _ _ _ _ _ _ _ _ ST (proj1 EN) S2 (proj1 EN2)) as (-> & -> & -> & ->); exists 1%nat; (split; [lia|]); left; cbn [crun cstep]; rewrite (find_block b bl Hb), V1;
         destruct EN as (_ & d1 & D1 & ->); destruct EN2 as (_ & d3 & D3 & ->); assert (d1 = d) by congruence; assert (d3 = d) by congruence; assert (d2 = d) by congruence; subst; auto.
    2,4: destruct (end_unique _ _ _ _ _ _ _ _ _ ST (proj1 EN) S2 (proj1 X2)) as (-> & -> & -> & ->); exists 1%nat; (split; [lia|]); right; cbn [crun cstep]; rewrite (find_block b bl Hb), V1; auto.
    - assert (n = 0%nat) by lia. subst n. inversion ST; subst. destruct EN as [EN _]. inversion S2; subst. congruence.
    - assert (MN : (S m <= n)%nat).
      { destruct (Nat.le_gt_cases (S m) n) as [X|X]; [exact X|]. exfalso. replace (S m) with (n + S (m - n))%nat in S2 by lia.
        pose proof (steps_det _ _ _ _ _ ST S2) as X2. inversion X2; subst. destruct EN as [EN _]. congruence. }
      replace n with (S m + (n - S m))%nat in ST by lia. pose proof (steps_det _ _ _ _ _ S2 ST) as ST2.
      pose proof (steps_reach _ _ _ S2 HR) as HR2. cbn [fst snd] in HR2. rewrite <- E2 in ST2, HR2.
      destruct (IH (n - S m)%nat b' bl' st2 y2 c' i st' y' yf d ltac:(lia) B2 HR2 V2 ST2 EN Hd) as (k & K & CR).
      exists (S k). split; [lia|]. cbn [crun cstep]. rewrite (find_block b bl Hb), V1. cbn [fst snd]. rewrite <- E2. exact CR.
  Qed.
End Contract.
