(** Property C56: a translated contract executes as the EVM does. *)
From Verif Require Import OpcodeSpec SectionsModel SectionsProof SummarySpec DseProof StructProof CfgProof ProgramProof FlowSpec BlockProof SummaryProof LinkProof VStackProof DseProps BlockProps SummaryProps JumpModel DemoTables DseDemo.
From Verif Require Import WholeSpec WholeProof.
From Coq Require Import ZifyBool.
Import ListNotations.
Open Scope Z_scope.

(** C56. Take a contract through loading, analysis, dead store elimination and sectioning, and let [V i]
    be any correct translation of instruction [i]. Then the running code is never stuck; whenever it is
    between blocks, the EVM reaches the instruction it is about to execute with the same state and the
    stack in its memory; when it returns, the EVM ends in the same state without a stack error; when a
    stack-bounds check fails, the EVM's execution ends exceptionally.
    Partial: deduplication off; contracts of at most 10879 bytes (finding F4), shallow executions (F2),
    aligned snapshots (F16); gas is not part of the state (C06 to C08). *)
Theorem C56_follows_partial {Y} info stack_io key lim code env prog (sem : nat -> list Z -> Y -> option (list Z * Y)) fin y0
    inspect istanbul extra p p' (V : nat -> vinst (wstate Y)) c :
  small_loaded info stack_io key lim code env prog -> sem_ok prog (a_const env) sem (a_codelen env) ->
  shallow env prog sem y0 ->
  analyze env prog = Some p -> dead_store_elim inspect (a_const env) p = Some p' ->
  (forall i t, item_at (a_const env) p i = Some t -> aligned t) ->
  (forall b bl i, nth_error (b_blocks p') b = Some bl -> (bk_start bl <= i < bk_end bl)%nat ->
     translated env sem fin p' (construct_sections (b_dyn p') istanbul extra (b_insts p')) i (V i)) ->
  in_memory c [] ->
  forall n, exists s, crun p' V n (CRun (JGoto 0) y0 c) = Some s /\
  match s with
  | CRun k y c' => exists i st, k = JGoto i /\ reach prog (a_const env) (a_dest env) sem y0 i st y /\ in_memory c' st
  | CDone yf => exists i st y d, reach prog (a_const env) (a_dest env) sem y0 i st y /\ ends_at prog env sem fin i st y yf /\
                                 nth_error prog i = Some d /\ stack_fine d st
  | CFail => exists i st y, reach prog (a_const env) (a_dest env) sem y0 i st y /\ exceptional prog env sem i st y
  end.
Proof.
  intros SL SO SH AN DE AL TR IM n.
  pose proof (start_tracks info stack_io key lim code env prog sem fin y0 inspect p p' SL SO SH AN DE c IM) as T0.
  destruct (run_tracks info stack_io key lim code env prog sem fin y0 inspect istanbul extra p p' V SL SO SH AN DE AL TR n _ T0) as (s & CR & T).
  exists s. split; [exact CR|]. destruct s as [k y c'|yf|]; [|exact T|exact T].
  destruct T as (b & bl & st & _ & -> & HR & IM'). eauto.
Qed.
Print Assumptions C56_follows_partial.

(** C56, the other direction: when the EVM's execution ends, so does the code's, after at most as many
    blocks as the EVM has executed instructions: in the same state, or with a stack error if the EVM's
    end is exceptional; always with a stack error if the EVM's execution ends with one. *)
Theorem C56_finishes_partial {Y} info stack_io key lim code env prog (sem : nat -> list Z -> Y -> option (list Z * Y)) fin y0
    inspect istanbul extra p p' (V : nat -> vinst (wstate Y)) c n i st y yf d :
  small_loaded info stack_io key lim code env prog -> sem_ok prog (a_const env) sem (a_codelen env) ->
  shallow env prog sem y0 ->
  analyze env prog = Some p -> dead_store_elim inspect (a_const env) p = Some p' ->
  (forall i t, item_at (a_const env) p i = Some t -> aligned t) ->
  (forall b bl i, nth_error (b_blocks p') b = Some bl -> (bk_start bl <= i < bk_end bl)%nat ->
     translated env sem fin p' (construct_sections (b_dyn p') istanbul extra (b_insts p')) i (V i)) ->
  in_memory c [] -> steps prog env sem n (0%nat, [], y0) (i, st, y) -> ends_at prog env sem fin i st y yf -> nth_error prog i = Some d ->
  exists k, (k <= S n)%nat /\
  (crun p' V k (CRun (JGoto 0) y0 c) = Some (CDone yf) /\ stack_fine d st \/
   crun p' V k (CRun (JGoto 0) y0 c) = Some CFail /\ exceptional prog env sem i st y).
Proof.
  intros SL SO SH AN DE AL TR IM ST EN Hd.
  destruct (start_tracks info stack_io key lim code env prog sem fin y0 inspect p p' SL SO SH AN DE c IM) as (b & bl & st0 & Hb & E & HR & IM').
  injection E as E. rewrite E. rewrite E in ST.
  assert (ST0 : st0 = []).
  { destruct IM as (IM & _). destruct IM' as (IM' & _). destruct st0; [reflexivity|]. rewrite IM in IM'. cbn [length] in IM'. lia. }
  subst st0.
  exact (finishes info stack_io key lim code env prog sem fin y0 inspect istanbul extra p p' V SL SO SH AN DE AL TR n n b bl [] y0 c i st y yf d (Nat.le_refl n) Hb HR IM' ST EN Hd).
Qed.
Print Assumptions C56_finishes_partial.

(** ** A contract with a loop, dead stores, and a translation of it.

    The state is a counter: MSTORE decrements it, CALLDATASIZE pushes it. *)
Definition wsem (prog : list idata) (i : nat) (args : list Z) (y : Z) : option (list Z * Z) :=
  match nth_error prog i with
  | Some d => if d_op d =? 0x36 then Some ([y mod 2 ^ 256], y)
              else if d_op d =? 0x52 then Some ([], y - 1)
              else if d_op d =? 0x5b then Some ([], y) else None
  | None => None
  end.
Definition wfin (i : nat) (args : list Z) (y : Z) : Z := y + 1000 + Z.of_nat i.
Definition w_io_check (prog : list idata) : bool :=
  forallb (fun d => if d_op d =? 0x36 then (fst (d_io d) =? 0) && (snd (d_io d) =? 1)
                    else if (d_op d =? 0x5b) || (d_op d =? 0x52) then snd (d_io d) =? 0 else true) prog.
Lemma wsem_ok prog const len : w_io_check prog = true -> sem_ok prog const (wsem prog) len.
Proof.
  unfold w_io_check. rewrite forallb_forall. intros C. constructor; unfold wsem.
  - intros i d args y outs y' H. rewrite H. specialize (C d (nth_error_In _ _ H)). destruct (d_op d =? 0x36) eqn:E36.
    + intros X. injection X as <- <-. split; [cbn [length]; lia|]. constructor; [|constructor]. unfold ArithSpec.is_word. change ArithSpec.W with (2 ^ 256).
      apply Z.mod_pos_bound. reflexivity.
    + destruct (d_op d =? 0x52) eqn:E52; [intros X; injection X as <- <-; split; [cbn [length]; rewrite orb_true_r in C; lia|constructor]|].
      destruct (d_op d =? 0x5b) eqn:E5b; [|discriminate]. intros X. injection X as <- <-. split; [cbn [length] in *; cbn [orb] in C; lia|constructor].
  - intros i d o args y outs y' r H H0. rewrite H.
    assert (X : (d_op d =? 0x36) = false /\ (d_op d =? 0x52) = false /\ (d_op d =? 0x5b) = false) by (rewrite H0; destruct o; repeat split; reflexivity).
    destruct X as (-> & -> & ->). discriminate.
  - intros i d args y outs y' H H0. rewrite H, H0. discriminate.
  - intros i d args y outs y' H H0. rewrite H, H0. discriminate.
Qed.

(** PUSH, POP, JUMPDEST, CALLDATASIZE, MSTORE, DUP1, a JUMPI with a known target, STOP. *)
Definition wbody (t : ditem) : VStackModel.body (wstate Z) :=
  let op := d_op (it_d t) in
  if (0x5f <=? op) && (op <=? 0x7f) then BFold (it_imm t)
  else if op =? 0x50 then BPop
  else if op =? 0x5b then BNop
  else if op =? 0x36 then BBuiltinTop
  else if op =? 0x52 then BInline 2 false
  else if op =? 0x80 then BDup 1
  else if op =? 0x57 then BJump false (Some true)
  else BHalt.
Definition wlow (env : aenv) (prog : list idata) (p : bc) (P : list idata) (i : nat) : vinst (wstate Z) :=
  match item_at (a_const env) p i, nth_error P i with
  | Some t, Some d =>
    mkVi (meaning env (wsem prog) wfin p i (it_d t)) (wbody t) (it_inp t) (it_outp t) (f_noop (d_flags (it_d t)))
      (if f_head (d_flags d) then Some (Z.to_nat (fst (d_stack_section d)), Z.to_nat (snd (d_stack_section d))) else None)
      (fun k => snap_const (it_in t) k) (out_const (it_out t)) (promised (it_in t))
  | _, _ => mkVi (ECall (fun w _ _ => (w, None))) BHalt 0 0 false None (fun _ => None) None (fun _ => False)
  end.
Definition wlow_b (prog : list idata) (i : nat) (t : ditem) (d : idata) : bool :=
  let e := it_d t in
  let op := d_op e in
  let io := d_io e in
  (d_op d =? op) && negb (f_disabled (d_flags e)) && negb (f_unknown (d_flags e)) && (length (it_in t) <=? it_inp t)%nat &&
  match nth_error prog i with Some d0 => d_op d0 =? op | None => false end &&
  (((0x5f <=? op) && (op <=? 0x7f) && (fst io =? 0) && (snd io =? 1) && match out_const (it_out t) with Some k => k =? it_imm t | None => true end)
   || (match out_const (it_out t) with Some _ => false | None => true end &&
       (((op =? 0x50) && (fst io =? 1) && (snd io =? 0)) || ((op =? 0x5b) && (fst io =? 0) && (snd io =? 0))
        || ((op =? 0x36) && (fst io =? 0) && (snd io =? 1)) || ((op =? 0x52) && (fst io =? 2) && (snd io =? 0))
        || ((op =? 0x80) && (fst io =? 1) && (snd io =? 2))
        || ((op =? 0x57) && (fst io =? 2) && (snd io =? 0) && f_static (d_flags e) && negb (f_multi (d_flags e)) && negb (f_invalid (d_flags e)) && negb (f_constcond (d_flags e)))
        || ((op =? 0x00) && (fst io =? 0) && (snd io =? 0))))).
Lemma snap_lt snap d k : snap_const snap d = Some k -> (d < length snap)%nat.
Proof.
  unfold snap_const. destruct (nth_error (rev snap) d) eqn:N; [|discriminate]. intros _.
  apply nth_lt in N. rewrite rev_length in N. exact N.
Qed.
Lemma wlow_ok env prog p P i t d : item_at (a_const env) p i = Some t -> nth_error P i = Some d -> wlow_b prog i t d = true ->
  translated env (wsem prog) wfin p P i (wlow env prog p P i).
Proof.
  intros IT HD H. unfold wlow. rewrite IT, HD. unfold wlow_b in H.
  assert (IMM : it_imm t = a_const env i) by (unfold item_at in IT; destruct (nth_error (b_insts p) i); [injection IT as <-; reflexivity|discriminate IT]).
  set (v := mkVi _ _ _ _ _ _ _ _ _).
  apply andb_prop in H as [H C]. apply andb_prop in H as [H PR]. apply andb_prop in H as [H LEN]. apply andb_prop in H as [H FU]. apply andb_prop in H as [OD FD].
  destruct (nth_error prog i) as [d0|] eqn:H0; [|discriminate PR]. apply Z.eqb_eq in PR, OD.
  assert (FX : f_disabled (d_flags (it_d t)) || f_unknown (d_flags (it_d t)) = false) by (revert FD FU; clear; lia).
  assert (CI : const_inputs_ok (unmark v)).
  { intros k x E. cbn in E. cbn [unmark vi_in vi_fact v]. split; [apply snap_lt in E; apply Nat.leb_le in LEN; cbn in LEN |- *; lia|]. intros args _ F. apply F. exact E. }
  assert (NO : noop_ok (unmark v)) by (intros E; discriminate E).
  assert (HEAD : exists d1, nth_error P i = Some d1 /\ headed d1 v /\ leaves_by_opcode d1 v).
  { exists d. split; [exact HD|]. split; [reflexivity|]. intros LV. cbn [v vi_body] in LV. rewrite OD.
    unfold wbody in LV. destruct ((0x5f <=? d_op (it_d t)) && (d_op (it_d t) <=? 0x7f)); [discriminate LV|]. destruct (d_op (it_d t) =? 0x50); [discriminate LV|]. destruct (d_op (it_d t) =? 0x5b); [discriminate LV|].
    destruct (d_op (it_d t) =? 0x36); [discriminate LV|]. destruct (d_op (it_d t) =? 0x52); [discriminate LV|]. destruct (d_op (it_d t) =? 0x80); [discriminate LV|].
    destruct (d_op (it_d t) =? 0x57) eqn:E57; [|discriminate LV]. apply Z.eqb_eq in E57. rewrite E57. reflexivity. }
  cut (0 <= fst (d_io (it_d t)) /\ 0 <= snd (d_io (it_d t)) /\ const_output_ok v /\ body_ok v /\ meaning_ok (it_d t) (it_imm t) v).
  { intros (I0 & O0 & CO & BO & ME). constructor.
    - exists t. split; [exact IT|]. split; [|split; [reflexivity|auto]].
      refine (conj _ (conj _ (conj eq_refl (conj (fun _ => eq_refl) (conj eq_refl ME))))); cbn [v vi_in vi_out]; unfold it_inp, it_outp; lia.
    - exact (conj CI (conj CO (conj BO NO))).
    - exact HEAD. }
  clear CI NO HEAD LEN FD FU. unfold meaning_ok. rewrite FX.
  assert (NDV : 0 < d_op (it_d t) < 0xf0 -> d_op (it_d t) <> 0x56 -> is_diverging (it_d t) = false).
  { intros A B. apply orb_false_iff in FX as [F1 F2]. unfold is_diverging. rewrite F1, F2. unfold OP_JUMP, OP_STOP, OP_RETURN, OP_REVERT, OP_INVALID, OP_SELFDESTRUCT. clear -A B. lia. }
  assert (SEM : vi_evm v = meaning env (wsem prog) wfin p i (it_d t)) by reflexivity.
  unfold meaning in SEM. rewrite FX in SEM.
  assert (VB : vi_body v = wbody t) by reflexivity. unfold wbody in VB.
  assert (VI : vi_in v = Z.to_nat (fst (d_io (it_d t)))) by reflexivity. assert (VO : vi_out v = Z.to_nat (snd (d_io (it_d t)))) by reflexivity.
  assert (VC : vi_cout v = out_const (it_out t)) by reflexivity. clearbody v.
  apply orb_prop in C as [C|C].
  - apply andb_prop in C as [C OC]. apply andb_prop in C as [C O1]. apply andb_prop in C as [PU I1]. rewrite PU in SEM, VB. apply Z.eqb_eq in I1, O1.
    rewrite I1, O1. split; [lia|]. split; [lia|]. unfold const_output_ok, body_ok. rewrite SEM, VB, VI, VO, VC, I1, O1. split.
    { intros k EK. rewrite EK in OC. apply Z.eqb_eq in OC. split; [reflexivity|]. split; [reflexivity|]. intros w args _ _. rewrite OC, IMM. reflexivity. }
    split; [split; [intros w args outs _ E; injection E as <-; reflexivity|split; [reflexivity|intros w args _ _; rewrite IMM; reflexivity]]|].
    assert (SH : shape_of (d_op (it_d t)) (it_imm t) = ShOther).
    { unfold shape_of. clear -PU. repeat (match goal with |- context [if ?b then _ else _] => replace b with false by lia end). reflexivity. }
    rewrite SH. split; [discriminate|]. eexists. split; [reflexivity|]. split; [intros _; split; [reflexivity|]; intros w args _; eexists; reflexivity|].
    intros D. rewrite NDV in D; [discriminate D| |]; clear -PU; lia.
  - apply andb_prop in C as [OC C]. assert (EK : out_const (it_out t) = None) by (destruct (out_const (it_out t)); [discriminate OC|reflexivity]).
    assert (CO : const_output_ok v) by (intros k E; rewrite VC, EK in E; discriminate E).
    assert (SW : forall w args, wsem prog i args w = if d_op (it_d t) =? 0x36 then Some ([w mod 2 ^ 256], w) else if d_op (it_d t) =? 0x52 then Some ([], w - 1) else if d_op (it_d t) =? 0x5b then Some ([], w) else None).
    { intros w args. unfold wsem. rewrite H0, PR. reflexivity. }
    apply orb_prop in C as [C|C]; [apply orb_prop in C as [C|C]; [apply orb_prop in C as [C|C]; [apply orb_prop in C as [C|C]; [apply orb_prop in C as [C|C]; [apply orb_prop in C as [C|C]|]|]|]|]|].
    + apply andb_prop in C as [C O1]. apply andb_prop in C as [O I1]. apply Z.eqb_eq in O, I1, O1. rewrite O in SEM, VB. cbn in SEM, VB.
      rewrite I1, O1. do 2 (split; [lia|]). split; [exact CO|]. unfold body_ok. rewrite SEM, VB, VI, VO, I1, O1, O. cbn [Z.to_nat Pos.to_nat].
      split; [split; [intros w args outs _ E; injection E as <-; reflexivity|repeat split; reflexivity]|]. split; [reflexivity|]. eexists. reflexivity.
    + apply andb_prop in C as [C O1]. apply andb_prop in C as [O I1]. apply Z.eqb_eq in O, I1, O1. rewrite O in SEM, VB. cbn in SEM, VB.
      rewrite I1, O1. do 2 (split; [lia|]). split; [exact CO|]. unfold body_ok. rewrite SEM, VB, VI, VO, I1, O1, O.
      split; [split; [|split; reflexivity]|].
      * intros w args outs _. rewrite SW, O. cbn. intros E. injection E as <-. reflexivity.
      * split; [discriminate|]. eexists. split; [reflexivity|]. split; [unfold stack_only; intros X; exfalso; clear -X; lia|].
        intros D. rewrite NDV in D; [discriminate D| |]; rewrite O; clear; lia.
    + apply andb_prop in C as [C O1]. apply andb_prop in C as [O I1]. apply Z.eqb_eq in O, I1, O1. rewrite O in SEM, VB. cbn in SEM, VB.
      rewrite I1, O1. do 2 (split; [lia|]). split; [exact CO|]. unfold body_ok. rewrite SEM, VB, VI, VO, I1, O1, O.
      split; [split; [|split; reflexivity]|].
      * intros w args outs _. rewrite SW, O. cbn -[Z.modulo Z.pow]. intros E. injection E as <-. reflexivity.
      * split; [discriminate|]. eexists. split; [reflexivity|]. split.
        -- intros _. split; [reflexivity|]. intros w args _. rewrite SW, O. cbn -[Z.modulo Z.pow]. exists [fst w mod 2 ^ 256]. destruct w; reflexivity.
        -- intros D. rewrite NDV in D; [discriminate D| |]; rewrite O; clear; lia.
    + apply andb_prop in C as [C O1]. apply andb_prop in C as [O I1]. apply Z.eqb_eq in O, I1, O1. rewrite O in SEM, VB. cbn in SEM, VB.
      rewrite I1, O1. do 2 (split; [lia|]). split; [exact CO|]. unfold body_ok. rewrite SEM, VB, VI, VO, I1, O1, O.
      split; [split; [|split; reflexivity]|].
      * intros w args outs _. rewrite SW, O. cbn. intros E. injection E as <-. reflexivity.
      * split; [discriminate|]. eexists. split; [reflexivity|]. split; [unfold stack_only; intros X; exfalso; clear -X; lia|].
        intros D. rewrite NDV in D; [discriminate D| |]; rewrite O; clear; lia.
    + apply andb_prop in C as [C O1]. apply andb_prop in C as [O I1]. apply Z.eqb_eq in O, I1, O1. rewrite O in SEM, VB. cbn in SEM, VB.
      rewrite I1, O1. do 2 (split; [lia|]). split; [exact CO|]. unfold body_ok. rewrite SEM, VB, VI, VO, I1, O1, O.
      split; [repeat split; lia|]. reflexivity.
    + repeat (let X := fresh "X" in apply andb_prop in C as [C X]). apply Z.eqb_eq in C, X4, X3. rewrite C in SEM, VB. cbn in SEM, VB.
      apply negb_true_iff in X, X0, X1.
      rewrite X3, X4. do 2 (split; [lia|]). split; [exact CO|]. unfold body_ok. rewrite SEM, VB, VI, VO, X3, X4, C.
      split.
      * split; [|split; [reflexivity|split; [reflexivity|]]].
        -- intros w args outs _. unfold jump_code. destruct (lower_jump _ _ _ _ _ _) as [[k| |]|]; intros E; try discriminate E; injection E as <-; reflexivity.
        -- intros w a b _. unfold jump_code, ignoring. cbn [nth]. unfold lower_jump. rewrite X0, X1, X2. reflexivity.
      * split; [discriminate|]. eexists. split; [reflexivity|]. split; [unfold stack_only; intros Q; exfalso; clear -Q; lia|].
        intros D. rewrite NDV in D; [discriminate D| |]; rewrite C; clear; lia.
    + apply andb_prop in C as [C O1]. apply andb_prop in C as [O I1]. apply Z.eqb_eq in O, I1, O1. rewrite O in SEM, VB. cbn in SEM, VB.
      rewrite I1, O1. do 2 (split; [lia|]). split; [exact CO|]. unfold body_ok. rewrite SEM, VB, VI, VO, I1, O1, O.
      split; [split; [intros w args outs _ E; discriminate E|split; [reflexivity|split; reflexivity]]|].
      split; [discriminate|]. eexists. split; [reflexivity|]. split; [unfold stack_only; intros X; exfalso; clear -X; lia|]. intros _ w args. reflexivity.
Qed.

Lemma run_steps {Y} prog env (sem : nat -> list Z -> Y -> option (list Z * Y)) n : forall s s',
  DemoTables.run prog (a_const env) (a_dest env) sem n s = Some s' -> steps prog env sem n s s'.
Proof.
  induction n as [|n IH]; intros [[i st] y] s' H; cbn [DemoTables.run] in H.
  - injection H as <-. constructor.
  - destruct (evm_step prog _ _ sem i st y) as [s1|] eqn:E; [|discriminate]. econstructor; eauto.
Qed.

Definition sections_of (p' : bc) : list idata := construct_sections (b_dyn p') true (fun _ => 0) (b_insts p').
Definition state_is (s : option (nat * list Z * Z)) (i : nat) (y : Z) : bool :=
  match s with Some (j, [], y1) => (j =? i)%nat && (y1 =? y) | _ => false end.
(** The contract ends after [n] steps at [i], with an empty stack and the counter [y]. *)
Definition whole_b (code : list Z) (y0 : Z) (n i : nat) (y : Z) (noops : nat) (fine : bool) : bool :=
  match load demo_info demo_io (fun v => v) 1000 code with
  | Some (env, prog) =>
      match analyze env prog with
      | Some p =>
          match dead_store_elim false (a_const env) p with
          | Some p' =>
              forallb (fun b => (0 <=? b) && (b <? 256)) code && (Z.of_nat (length code) <? 1000)
              && w_io_check prog && depth_check prog (a_const env) (a_dest env) (wsem prog) 64 (S n) (0%nat, [], y0)
              && forallb (fun i => match item_at (a_const env) p i with Some t => aligned_b t | None => true end) (seq 0 (length (b_insts p)))
              && forallb (fun bl => forallb (fun i => match item_at (a_const env) p' i, nth_error (sections_of p') i with
                                                      | Some t, Some d => wlow_b prog i t d
                                                      | _, _ => false
                                                      end) (seq (bk_start bl) (bk_end bl - bk_start bl))) (b_blocks p')
              && state_is (DemoTables.run prog (a_const env) (a_dest env) (wsem prog) n (0%nat, [], y0)) i y
              && match evm_step prog (a_const env) (a_dest env) (wsem prog) i [] y, nth_error prog i with
                 | None, Some d => Bool.eqb fine ((fst (d_io d) <=? 0) && (- fst (d_io d) + snd (d_io d) <=? 1024))
                 | _, _ => false
                 end
              && (noops <=? length (filter (fun d => f_noop (d_flags d)) (b_insts p')))%nat
          | None => false
          end
      | None => false
      end
  | None => false
  end.
Lemma whole_b_ok code y0 n i y noops fine : whole_b code y0 n i y noops fine = true -> exists env prog p p',
  small_loaded demo_info demo_io (fun v => v) 1000 code env prog /\ sem_ok prog (a_const env) (wsem prog) (a_codelen env) /\
  shallow env prog (wsem prog) y0 /\
  analyze env prog = Some p /\ dead_store_elim false (a_const env) p = Some p' /\
  (forall i t, item_at (a_const env) p i = Some t -> aligned t) /\
  (forall b bl i, nth_error (b_blocks p') b = Some bl -> (bk_start bl <= i < bk_end bl)%nat ->
     translated env (wsem prog) wfin p' (sections_of p') i (wlow env prog p' (sections_of p') i)) /\
  in_memory (cx_of []) [] /\ steps prog env (wsem prog) n (0%nat, [], y0) (i, [], y) /\
  (exists d, nth_error prog i = Some d /\ ends_at prog env (wsem prog) wfin i [] y (wfin i (operands d []) y) /\ (fine = true <-> stack_fine d [])) /\
  (noops <= length (filter (fun d => f_noop (d_flags d)) (b_insts p')))%nat.
Proof.
  intros H. unfold whole_b in H. destruct (load demo_info demo_io (fun v => v) 1000 code) as [[env prog]|] eqn:EL; [|discriminate].
  destruct (analyze env prog) as [p|] eqn:EA; [|discriminate]. destruct (dead_store_elim false (a_const env) p) as [p'|] eqn:ED; [|discriminate].
  apply andb_true_iff in H as [H NOOP]. apply andb_true_iff in H as [H FIN]. apply andb_true_iff in H as [H ST]. apply andb_true_iff in H as [H LOW].
  apply andb_true_iff in H as [H AL]. apply andb_true_iff in H as [H DC]. apply andb_true_iff in H as [H IO]. apply andb_true_iff in H as [BY LEN].
  exists env, prog, p, p'.
  split; [|split; [apply wsem_ok; exact IO|]].
  { split; [split; [exact demo_tables_ok|split; [|split; [|split; [auto|exact EL]]]]|].
    - apply Forall_forall. rewrite forallb_forall in BY. intros b Hb. specialize (BY b Hb). unfold is_byte. lia.
    - lia.
    - split; [exact demo_effects|]. unfold SMALL. lia. }
  split; [intros _; eapply depth_check_reach; exact DC|].
  split; [exact EA|]. split; [exact ED|].
  split. { intros k t IT. rewrite forallb_forall in AL. specialize (AL k). rewrite IT in AL.
    assert (L : (k < length (b_insts p))%nat) by (unfold item_at in IT; apply nth_error_Some; destruct (nth_error (b_insts p) k); [discriminate|discriminate IT]).
    specialize (AL (proj2 (in_seq _ _ _) (conj (Nat.le_0_l _) L))). pose proof (proj1 (aligned_b_ok [t])) as Q. cbn [forallb] in Q. rewrite AL in Q. exact (Forall_inv (Q eq_refl)). }
  split. { intros b bl k Hb L. rewrite forallb_forall in LOW. specialize (LOW bl (nth_error_In _ _ Hb)). rewrite forallb_forall in LOW.
    assert (IS : In k (seq (bk_start bl) (bk_end bl - bk_start bl))) by (apply in_seq; clear -L; lia). specialize (LOW k IS). destruct (item_at (a_const env) p' k) as [t|] eqn:IT; [|discriminate LOW].
    destruct (nth_error (sections_of p') k) as [d|] eqn:HD; [|discriminate LOW]. exact (wlow_ok env prog p' (sections_of p') k t d IT HD LOW). }
  split; [apply cx_of_ok|].
  split. { apply run_steps. destruct (DemoTables.run _ _ _ _ n _) as [[[j st] y1]|]; [|discriminate ST]. cbn [state_is] in ST. destruct st; [|discriminate ST]. repeat f_equal; lia. }
  split; [|apply Nat.leb_le; exact NOOP].
  destruct (evm_step prog _ _ _ i [] y) eqn:EE; [discriminate FIN|]. destruct (nth_error prog i) as [d|] eqn:Ed; [|discriminate FIN].
  exists d. split; [reflexivity|]. split; [split; [exact EE|]; exists d; auto|]. apply eqb_prop in FIN. rewrite FIN. unfold stack_fine. cbn [length]. lia.
Qed.

(** JUMPDEST; CALLDATASIZE; POP; PUSH0; PUSH0; MSTORE; CALLDATASIZE; DUP1; POP; PUSH0; JUMPI; STOP.
    The contract loops three times over its counter; at least five of its twelve instructions are
    skipped; it ends after 33 steps, without a stack error. *)
Definition whole_code : list Z := [0x5b; 0x36; 0x50; 0x5f; 0x5f; 0x52; 0x36; 0x80; 0x50; 0x5f; 0x57; 0x00].
Example C56_ex : whole_b whole_code 3 33 11 0 5 true = true.
Proof. vm_compute. reflexivity. Qed.
(** PUSH0; POP; POP; STOP: ends after 2 steps with a stack error, so the code fails at its only check. *)
Example C56_stack_error_ex : whole_b [0x5f; 0x50; 0x50; 0x00] 3 2 2 3 0 false = true.
Proof. vm_compute. reflexivity. Qed.
