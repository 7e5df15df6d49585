(** Property C25: suspension and re-entry. *)
From Verif Require Import ProgramModel ResumeModel ResumeSpec OpcodeSpec FlowSpec CfgProof BlockProof ProgramProof AnalysisProof DemoTables OpcodeProps BlockProps DedupModel DedupRedir TableProps StructProof ResumeProof.
From Coq Require Import ZifyBool Permutation.
Open Scope Z_scope.

Lemma pad_next info l i d : nth_error (pad_insts (map (idata_of info) l)) i = Some d -> can_fall_through d = true -> (S i < length (pad_insts (map (idata_of info) l)))%nat.
Proof.
  intros Hn F0. destruct (pad_nth _ _ _ _ Hn) as [(ins & X & ->)|[_ ->]]; [|discriminate F0].
  pose proof (nth_lt _ _ _ X) as Hl.
  assert (E0 : exists dl, last (map Some (map (idata_of info) l)) None = Some dl /\ (S i = length l -> dl = idata_of info ins)).
  { destruct l as [|x l0] eqn:El; [cbn in Hl; lia|].
    destruct (@exists_last _ (x :: l0)) as (l' & z & Ez); [discriminate|]. rewrite Ez in *.
    rewrite !map_app. cbn [map]. rewrite last_last. exists (idata_of info z). split; [reflexivity|].
    intros EL. rewrite app_length in EL. cbn in EL. rewrite nth_error_app2 in X by lia.
    replace (i - length l')%nat with 0%nat in X by lia. cbn in X. congruence. }
  destruct E0 as (dl & E0 & E1). unfold pad_insts. rewrite E0.
  destruct (can_fall_through dl) eqn:F; [rewrite app_length, map_length; cbn; lia|]. rewrite map_length.
  destruct (Nat.eq_dec (S i) (length l)) as [EL|NE]; [|lia]. rewrite (E1 EL) in F. congruence.
Qed.
Lemma suspending_falls d : may_suspend d = true -> f_disabled (d_flags d) = false -> f_unknown (d_flags d) = false -> can_fall_through d = true.
Proof.
  unfold may_suspend, can_fall_through, is_diverging, has_const_jumpi_condition, OP_CALL, OP_CALLCODE, OP_DELEGATECALL, OP_STATICCALL, OP_CREATE, OP_CREATE2,
    OP_JUMP, OP_JUMPI, OP_STOP, OP_RETURN, OP_REVERT, OP_INVALID, OP_SELFDESTRUCT. intros M -> ->.
  repeat match type of M with (_ || _) = true => apply orb_true_iff in M as [M|M] end; apply Z.eqb_eq in M; rewrite M; reflexivity.
Qed.
Lemma emits_parts d : emits_suspend d = true <-> is_dead d = false /\ may_suspend d = true /\ f_disabled (d_flags d) = false /\ f_unknown (d_flags d) = false /\ f_noop (d_flags d) = false.
Proof. unfold emits_suspend. destruct (is_dead d), (may_suspend d), (f_disabled _), (f_unknown _), (f_noop _); cbn; intuition discriminate. Qed.

Lemma analysed_insts info stack_io key lim code env prog ord p : loaded info stack_io key lim code env prog -> analysed ord env prog p ->
  length (b_insts p) = length prog /\
  forall i d, nth_error (b_insts p) i = Some d -> exists d0, nth_error prog i = Some d0 /\ d_op d = d_op d0 /\ frozen d = frozen d0.
Proof.
  intros L AN. destruct (loaded_facts info stack_io key lim code env prog L) as (PK & RAW & KEY & _).
  assert (A0 : forall q, analyze env prog = Some q -> length (b_insts q) = length prog /\
    forall i d, nth_error (b_insts q) i = Some d -> exists d0, nth_error prog i = Some d0 /\ d_op d = d_op d0 /\ frozen d = frozen d0).
  { intros q E. destruct (analyze_well _ _ _ (fun i d H => proj2 (proj2 (proj2 (proj2 (RAW i d H))))) E) as ([KL K] & _). split; [exact KL|].
    intros i d H. destruct (K i d H) as (d0 & H0 & O & IO & DT & _ & _ & _ & DI & UN & NO & _). exists d0. unfold frozen. repeat split; congruence. }
  destruct AN as [E|[PO E]]; [apply A0, E|].
  destruct (analyze_dedup_shrinks _ _ _ _ PO RAW E) as (q & Eq & SL & SP). destruct (A0 q Eq) as [L0 P0]. split; [congruence|].
  intros i d H. destruct (SP i d H) as (d1 & H1 & O1 & F1 & _). destruct (P0 i d1 H1) as (d0 & H0 & O0 & F0). exists d0. repeat split; congruence.
Qed.

Section C25.
  Context (info : Z -> opinfo) (stack_io : Z -> Z * Z) (key : Z -> Z) (lim : Z) (code : list Z) (env : aenv) (prog : list idata)
          (ord : list (list nat) -> list (list nat)) (p : bc).
  Hypothesis L : loaded info stack_io key lim code env prog.
  Hypothesis AN : analysed ord env prog p.

  Lemma suspending_next i d : nth_error (b_insts p) i = Some d -> emits_suspend d = true -> (S i < length (b_insts p))%nat.
  Proof.
    intros H E. apply emits_parts in E as (_ & M & D & U & _). destruct (analysed_insts _ _ _ _ _ _ _ _ _ L AN) as [LL P]. destruct (P i d H) as (d0 & H0 & O & F).
    unfold frozen in F. injection F as _ _ FD FU _. rewrite LL.
    assert (F0 : can_fall_through d0 = true) by (apply suspending_falls; [unfold may_suspend in *; congruence|congruence|congruence]).
    destruct L as (_ & _ & _ & _ & LD). unfold load in LD. destruct (parse (active_of info) stack_io code) as [st|] eqn:PA; [|discriminate].
    apply (f_equal (fun o => match o with Some x => x | None => (env, prog) end)) in LD. cbn match in LD. apply pair_equal_spec in LD as [_ <-].
    eapply pad_next; eassumption.
  Qed.
  Lemma table_exists : exists t, build_table p = Some t.
  Proof. pose proof (build_table_total p suspending_next). destruct (build_table p) as [t|]; [eauto|congruence]. Qed.
End C25.

(** C25, the indices. For every bytecode, with or without deduplication, code generation assigns the
    values 1, ..., N to the live enabled CALLs and CREATEs, one each, with N at most the code length (so
    each fits the interpreter's program counter it is kept in); value [v] resumes where the instruction
    after its owner starts. *)
Theorem C25_indices info stack_io key lim code env prog ord p : loaded info stack_io key lim code env prog -> analysed ord env prog p ->
  exists t, build_table p = Some t /\ (length (rt_blocks t) <= length code)%nat /\
    NoDup (map fst (rt_values t)) /\ NoDup (map snd (rt_values t)) /\
    (forall i v, In (i, v) (rt_values t) -> (1 <= v <= length (rt_blocks t))%nat /\ nth_error (rt_blocks t) (v - 1) = effective_next_entry p i) /\
    (forall v, (1 <= v <= length (rt_blocks t))%nat -> exists i, In (i, v) (rt_values t)) /\
    (forall i, (exists v, In (i, v) (rt_values t)) <->
       exists d, nth_error (b_insts p) i = Some d /\ is_dead d = false /\ f_disabled (d_flags d) = false /\ f_unknown (d_flags d) = false /\
         In (d_op d) [0xf1; 0xf2; 0xf4; 0xfa; 0xf0; 0xf5]).
Proof.
  intros L AN. destruct (table_exists _ _ _ _ _ _ _ _ _ L AN) as [t BT]. exists t. split; [exact BT|]. destruct (build_table_ok _ _ BT) as [[A B] F].
  assert (NF : NoDup (map fst (rt_values t))) by (rewrite F; apply NoDup_filter, seq_NoDup).
  destruct (analysed_insts _ _ _ _ _ _ _ _ _ L AN) as [LL P].
  assert (OPS : forall d, may_suspend d = true <-> In (d_op d) [0xf1; 0xf2; 0xf4; 0xfa; 0xf0; 0xf5]).
  { intros d. unfold may_suspend, OP_CALL, OP_CALLCODE, OP_DELEGATECALL, OP_STATICCALL, OP_CREATE, OP_CREATE2. cbn [In]. rewrite !orb_true_iff, !Z.eqb_eq. intuition. }
  assert (NN : forall i d, nth_error (b_insts p) i = Some d -> may_suspend d = true -> f_noop (d_flags d) = false).
  { intros i d H M. destruct (P i d H) as (d0 & H0 & O & FR). unfold frozen in FR. injection FR as _ _ _ _ ->.
    destruct (loaded_facts info stack_io key lim code env prog L) as (_ & RAW & _).
    destruct L as (_ & _ & _ & _ & LD). unfold load in LD. destruct (parse (active_of info) stack_io code) as [st|] eqn:PA; [|discriminate].
    apply (f_equal (fun o => match o with Some x => x | None => (env, prog) end)) in LD. cbn match in LD. apply pair_equal_spec in LD as [_ <-].
    destruct (pad_nth _ _ _ _ H0) as [(ins & X & ->)|[_ ->]]; reflexivity. }
  split.
  { assert (LV : length (rt_blocks t) = length (map fst (rt_values t))) by (rewrite map_length, <- (map_length snd), A, seq_length; reflexivity).
    rewrite LV. destruct L as (_ & _ & _ & _ & LD). unfold load in LD. destruct (parse (active_of info) stack_io code) as [st|] eqn:PA; [|discriminate].
    apply (f_equal (fun o => match o with Some x => x | None => (env, prog) end)) in LD. cbn match in LD. apply pair_equal_spec in LD as [_ EP].
    destruct (parse_inst_inv _ _ _ _ PA) as (_ & _ & LT & ND & _).
    transitivity (length (p_insts st)).
    - rewrite <- (seq_length (length (p_insts st)) 0). apply NoDup_incl_length; [exact NF|]. intros i Hi. rewrite F in Hi. apply filter_In in Hi as [_ Hi].
      destruct (nth_error (b_insts p) i) as [d|] eqn:Hd; [|discriminate]. apply emits_parts in Hi as (_ & M & _). destruct (P i d Hd) as (d0 & H0 & O & _). rewrite <- EP in H0.
      destruct (pad_nth _ _ _ _ H0) as [(ins & X & _)|[_ ->]]; [apply in_seq; apply nth_lt in X; lia|]. unfold may_suspend in M. rewrite O in M. discriminate.
    - rewrite <- (map_length i_pc), <- (seq_length (length code) 0). apply NoDup_incl_length; [exact ND|]. intros k Hk. apply in_map_iff in Hk as (ins & <- & Hin).
      destruct (LT ins Hin) as [_ X]. apply in_seq. lia. }
  split; [exact NF|]. split; [rewrite A; apply seq_NoDup|]. split.
  { intros i v Hin. pose proof (in_map snd _ _ Hin) as X. rewrite A in X. apply in_seq in X. cbn in X. split; [lia|].
    apply In_nth_error in Hin as [k Hk]. destruct (B k i v Hk) as (b & -> & ->). reflexivity. }
  split.
  { intros v H. assert (X : In v (map snd (rt_values t))) by (rewrite A; apply in_seq; lia). apply in_map_iff in X as ([i v'] & <- & X). eauto. }
  intros i. transitivity (In i (map fst (rt_values t))).
  { split; [intros [v H]; apply (in_map fst) in H; exact H|]. intros H. apply in_map_iff in H as ([i' v] & <- & H). eauto. }
  rewrite F, filter_In. split.
  - intros [_ H]. destruct (nth_error (b_insts p) i) as [d|] eqn:Hd; [|discriminate]. apply emits_parts in H as (D1 & D2 & D3 & D4 & _). exists d. rewrite <- OPS. auto.
  - intros (d & Hd & D1 & D3 & D4 & D2). rewrite <- OPS in D2. split; [apply in_seq; apply nth_lt in Hd; lia|]. rewrite Hd. apply emits_parts. repeat split; auto. eapply NN; eauto.
Qed.
Print Assumptions C25_indices.

(** C25, re-entry. Whatever the instructions do, whatever the host answers, however often the function
    is suspended, whatever is in uninitialised stack memory, with or without a local stack and with or
    without deduplication: calling the compiled function, starting from a zero resume value, until it
    stops being suspended gives exactly the results of running the contract without interruption, where
    a CALL is carried out at once, its result pushed, and execution goes on at the entry of the next
    instruction (or of its canonical copy). The function never reports an invalid resume value. *)
Theorem C25_resume {W R} info stack_io key lim code env prog ord p (local inspect : bool) (body : nat -> list Z -> W -> bres W R) junk host (s : stk) (w : W) :
  loaded info stack_io key lim code env prog -> analysed ord env prog p ->
  (forall i st w st' w', body i st w = BSuspend st' w' -> exists d, nth_error (b_insts p) i = Some d /\ emits_suspend d = true) ->
  exists t, build_table p = Some t /\
    let start := if inspect then live s else [] in
    ~ drives p t local inspect body junk host 0 0 s w None /\
    (forall r w', drives p t local inspect body junk host 0 0 s w (Some (r, w')) <->
       executes (fun i st w => match body i st w with BNext j st w => Continue j st w | BSuspend st w => CallOut st w | BDone r w => Finish r w end)
         (fun i j => effective_next_entry p i = Some (JGoto j)) host 0 start w r w').
Proof.
  intros L AN SUSP. destruct (table_exists _ _ _ _ _ _ _ _ _ L AN) as [t BT]. exists t. split; [exact BT|].
  assert (EN : enters p t inspect 0 s 0 (if inspect then live s else [])) by (unfold enters; rewrite andb_false_r; auto).
  split; [intros D; exact (drives_sound _ _ _ _ _ _ _ BT SUSP _ _ _ _ _ D _ _ EN)|]. intros r w'. split.
  - intros D. exact (drives_sound _ _ _ _ _ _ _ BT SUSP _ _ _ _ _ D _ _ EN).
  - intros E. eapply drives_complete; [exact BT|exact SUSP|exact EN|exact E].
Qed.
Print Assumptions C25_resume.

(** Without deduplication the next instruction is the lexically next one. *)
Theorem C25_next {W R} info stack_io key lim code env prog p (local inspect : bool) (body : nat -> list Z -> W -> bres W R) junk host (s : stk) (w : W) :
  loaded info stack_io key lim code env prog -> analyze env prog = Some p ->
  (forall i st w st' w', body i st w = BSuspend st' w' -> exists d, nth_error (b_insts p) i = Some d /\ emits_suspend d = true) ->
  exists t, build_table p = Some t /\
    let start := if inspect then live s else [] in
    ~ drives p t local inspect body junk host 0 0 s w None /\
    (forall r w', drives p t local inspect body junk host 0 0 s w (Some (r, w')) <->
       executes (fun i st w => match body i st w with BNext j st w => Continue j st w | BSuspend st w => CallOut st w | BDone r w => Finish r w end)
         (fun i j => j = S i) host 0 start w r w').
Proof.
  intros L E SUSP. assert (AN : analysed (fun g => g) env prog p) by (left; exact E).
  destruct (C25_resume info stack_io key lim code env prog (fun g => g) p local inspect body junk host s w L AN SUSP) as (t & BT & NP & IFF).
  exists t. split; [exact BT|]. cbv zeta. split; [exact NP|]. intros r w'. rewrite IFF.
  destruct (loaded_facts info stack_io key lim code env prog L) as (PK & RAW & KEY & _).
  destruct (analyze_well _ _ _ (fun i d H => proj2 (proj2 (proj2 (proj2 (RAW i d H))))) E) as (_ & [_ DS] & _).
  assert (RD : b_redirects p = []).
  { unfold analyze in E. destruct (analyze_local env (initial prog)) as [pl|] eqn:E1; [|discriminate].
    destruct (local_start _ _ (initial_start _ RAW) _ E1) as (S1 & _). destruct (global_start _ _ S1 _ E) as ((Rd & _) & _). exact Rd. }
  assert (NX : forall i st w st' w' j, body i st w = BSuspend st' w' -> effective_next_entry p i = Some (JGoto j) <-> j = S i).
  { intros i st w0 st' w0' j H. destruct (SUSP _ _ _ _ _ H) as (d & Hd & EM). pose proof (suspending_next _ _ _ _ _ _ _ _ _ L AN _ _ Hd EM) as LT.
    unfold effective_next_entry, effective_entry, effective_inst. rewrite RD. cbn [lookup]. destruct (Nat.ltb_spec (S i) (length (b_insts p))); [|lia].
    destruct (nth_error (b_insts p) (S i)) as [d1|] eqn:H1; [|apply nth_error_None in H1; lia].
    destruct (is_dead d1) eqn:D1; [|split; congruence]. exfalso. apply emits_parts in EM as (D & M & DI & U & _).
    destruct (DS i d d1 Hd H1 D1) as [X|X]; [congruence|]. rewrite (suspending_falls d M DI U) in X. discriminate. }
  split; apply executes_ext; intros i st w0 st' w0' j H; destruct (body i st w0) eqn:EB; try discriminate; eapply NX; eauto.
Qed.
Print Assumptions C25_next.

(** Any other value panics instead of running code at a wrong place. *)
Theorem C25_invalid {W R} p t local inspect (body : nat -> list Z -> W -> bres W R) junk v s w o : calc_may_suspend p = true -> (length (rt_blocks t) < v)%nat ->
  calls p t local inspect body junk v s w o -> o = FPanic.
Proof.
  intros M V H. inversion H as [o1 [C|C] _|j o1 _ _ Hn _|_ _ _]; subst; [congruence|lia| |reflexivity].
  assert (X : nth_error (rt_blocks t) (v - 1) <> None) by congruence. apply nth_error_Some in X. lia.
Qed.
Print Assumptions C25_invalid.

(** Two CALLs: PUSH0 x7, CALL, PUSH0 x6, CALL, POP, STOP (the first result is the second call's gas). *)
Definition rs_code : list Z := repeat 0x5f 7 ++ [0xf1] ++ repeat 0x5f 6 ++ [0xf1; 0x50; 0x00].
Definition rs_body (i : nat) (st : list Z) (w : list Z) : bres (list Z) Z :=
  match nth_error rs_code i with
  | Some 0x5f => BNext (S i) (st ++ [0]) w
  | Some 0xf1 => BSuspend (firstn (length st - 7) st) (w ++ [Z.of_nat i])
  | Some 0x50 => BNext (S i) (removelast st) (w ++ [last st 0])
  | _ => BDone 0 w
  end.
(** The table is 1 -> 8, 2 -> 15. *)
Example C25_ex : match load demo_info demo_io (fun v => v) 1000 rs_code with
  | Some (env, prog) => match analyze env prog with
       | Some p => match build_table p with
           | Some (mkRt [JGoto 8; JGoto 15] [(7%nat, 1%nat); (14%nat, 2%nat)]) =>
               (length (b_insts p) =? length rs_code)%nat && calc_may_suspend p &&
               forallb (fun i => match nth_error (b_insts p) i with Some d => Bool.eqb (emits_suspend d) (nth i rs_code 0 =? 0xf1) | None => false end) (seq 0 (length rs_code))
           | _ => false end
       | None => false end
  | None => false end = true.
Proof. vm_compute. reflexivity. Qed.
(** The hypotheses of [C25_next] hold of it, and the uninterrupted run exists, so the driver finishes
    with its result. *)
Example C25_ex_run : exists env prog p, loaded demo_info demo_io (fun v => v) 1000 rs_code env prog /\ analyze env prog = Some p /\
  exists t, build_table p = Some t /\ forall junk s,
    drives p t true false rs_body junk (fun w => (Z.of_nat (length w) + 40, w)) 0 0 s [] (Some (0, [7; 14; 42])).
Proof.
  pose proof C25_ex as H. destruct (load demo_info demo_io (fun v => v) 1000 rs_code) as [[env prog]|] eqn:EL; [|discriminate].
  destruct (analyze env prog) as [p|] eqn:EA; [|discriminate]. exists env, prog, p.
  assert (LD : loaded demo_info demo_io (fun v => v) 1000 rs_code env prog).
  { split; [exact demo_tables_ok|]. split; [apply bytes_check; vm_compute; reflexivity|]. split; [vm_compute; reflexivity|]. split; [auto|exact EL]. }
  split; [exact LD|]. split; [exact EA|].
  assert (SUSP : forall i st w st' w', rs_body i st w = BSuspend st' w' -> exists d, nth_error (b_insts p) i = Some d /\ emits_suspend d = true).
  { intros i st w st' w' E. unfold rs_body in E. destruct (nth_error rs_code i) as [c|] eqn:Ec; [|discriminate]. assert (c = 0xf1) as ->.
    { destruct (Z.eq_dec c 0xf1) as [->|N]; [reflexivity|exfalso]. destruct c as [|c|c]; try discriminate E. do 8 (destruct c as [c|c|]; try discriminate E). congruence. }
    destruct (build_table p) as [t|]; [|discriminate].
    assert (K : forallb (fun i => match nth_error (b_insts p) i with Some d => Bool.eqb (emits_suspend d) (nth i rs_code 0 =? 0xf1) | None => false end) (seq 0 (length rs_code)) = true).
    { destruct t as [bs vs]. repeat match type of H with context [match ?x with _ => _ end] => is_var x; destruct x; try discriminate H end. apply andb_prop in H as [_ H]. exact H. }
    apply nth_lt in Ec as Li. rewrite forallb_forall in K. specialize (K i ltac:(apply in_seq; lia)). rewrite (nth_error_nth rs_code i 0 Ec) in K.
    destruct (nth_error (b_insts p) i) as [d|]; [|discriminate]. exists d. split; [reflexivity|]. apply eqb_prop in K. exact K. }
  destruct (C25_next _ _ _ _ _ _ _ _ true false rs_body (fun _ _ => 0) (fun w => (Z.of_nat (length w) + 40, w)) (mkStk (fun _ => 0) 0) [] LD EA SUSP) as (t & BT & _).
  exists t. split; [exact BT|]. intros junk s.
  destruct (C25_next _ _ _ _ _ _ _ _ true false rs_body junk (fun w => (Z.of_nat (length w) + 40, w)) s [] LD EA SUSP) as (t' & BT' & _ & IFF).
  assert (t' = t) by congruence. subst t'. apply IFF. cbn [live].
  do 7 (eapply ex_next; [reflexivity|]). eapply ex_call; [reflexivity|reflexivity|reflexivity|].
  do 6 (eapply ex_next; [reflexivity|]). eapply ex_call; [reflexivity|reflexivity|reflexivity|].
  eapply ex_next; [reflexivity|]. apply ex_finish. reflexivity.
Qed.
