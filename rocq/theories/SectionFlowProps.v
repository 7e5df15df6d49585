(** Properties C07 and C08 for compiled contracts: what [C07_sections_unobservable] assumes of control
    flow is proved here of every analysed program, with or without deduplication and dead store
    elimination. *)
From Verif Require Import ProgramModel InstModel BlockModel OpcodeSpec OpcodeProof FlowSpec CfgProof BlockProof AnalysisProof ProgramProof StructProof SummarySpec SummaryProof DemoTables BlockProps
  DedupModel DedupProof DedupRedir DedupLive DedupStart DedupProps TableProof TableProps DseModel DseProps SectionsModel SectionsSpec SectionsProps SummaryProps SectionFlow.
From Coq Require Import Permutation Lia ZifyBool.
Open Scope Z_scope.

(** What an instruction body does with gas: its dynamic gas covers what was prepaid; only gas-observing
    instructions read the gas left or are given gas back; only STOP-like instructions end the frame. *)
Record charges {X R : Type} (istanbul : bool) (extra : nat -> Z) (sem : nat -> Z -> Z -> X -> outcome X R) (l : list idata) : Prop := {
  ch_extra : forall i, 0 <= extra i;
  ch_end : forall i d, nth_error l i = Some d -> ends_section istanbul d = true -> extra i = 0;
  ch_next : forall i d g h x sp gv j x', nth_error l i = Some d -> sem i g h x = ONext sp gv j x' ->
    extra i <= sp /\ 0 <= gv /\ (observes_gas istanbul (d_op d) = false -> gv = 0);
  ch_stop : forall i d g h x sp r x', nth_error l i = Some d -> sem i g h x = OStop sp r x' -> extra i <= sp /\ ends_frame (d_op d) = true;
  ch_gas : forall i d g g' h x, nth_error l i = Some d -> observes_gas istanbul (d_op d) = false -> sem i g h x = sem i g' h x
}.
(** Bodies go where the analysed program goes: along an edge of it, followed through the redirects. *)
Definition along_edges {X R : Type} (sem : nat -> Z -> Z -> X -> outcome X R) (p : bc) : Prop :=
  forall i g h x sp gv j x', alive p i -> sem i g h x = ONext sp gv j x' -> exists t, edge p i t /\ leads (b_redirects p) t j.
(** Where a frame starts: at instruction 0, or where a live CALL or CREATE instruction continues. *)
Definition starts (p : bc) (i : nat) : Prop :=
  i = 0%nat \/ exists k d t, nth_error (b_insts p) k = Some d /\ f_dead (d_flags d) = false /\ In (d_op d) [0xf0; 0xf1; 0xf2; 0xf4; 0xf5; 0xfa] /\
    edge p k t /\ leads (b_redirects p) t i.

Lemma analysed_ready info stack_io key lim code env prog ord p : loaded info stack_io key lim code env prog -> tables_live info stack_io -> analysed ord env prog p ->
  ready p /\ live_at (b_insts p) 0 /\ kept_list prog (b_insts p) /\ exists p0, refresh_cfg p0 = Some p.
Proof.
  intros L (TU & TD & TO) AN. destruct (loaded_facts info stack_io key lim code env prog L) as (PK & RAW & KEY & _).
  assert (NE : prog <> []) by (eapply loaded_nonempty; exact L).
  destruct L as (TK & B & LEN & _ & LD).
  assert (KL : forall q, analyze env prog = Some q -> kept_list prog (b_insts q) /\ dead_struct (b_insts q)) by (intros q E; destruct (loaded_keeps info stack_io code key lim env prog LD q E) as (K & D & _); auto).
  destruct (load_inv info stack_io code key lim env prog LD) as (st & P & _ & EP).
  assert (RDY : forall pl q, analyze_local env (initial prog) = Some pl -> analyze_global env pl = Some q -> ready q).
  { eapply (analyze_ready env prog PK RAW); rewrite EP; intros i d.
    - apply (load_one info stack_io code st P i d TO).
    - apply load_target.
    - apply load_fall.
    - apply (load_jd info st i d TU TD). }
  destruct AN as [AN|[PO AN]].
  - destruct (KL p AN) as (K & D0 & D1). pose proof AN as AN'. unfold analyze in AN'. destruct (analyze_local env (initial prog)) as [pl|] eqn:E1; [|discriminate].
    split; [eapply RDY; eauto|]. split.
    { destruct (nth_error (b_insts p) 0) as [d|] eqn:H0; [exists d; auto|]. apply nth_error_None in H0. rewrite (proj1 K) in H0. destruct prog; [congruence|cbn in H0; lia]. }
    split; [exact K|]. unfold analyze_global in AN'. destruct (block_analysis env pl _) as [q|]; [|discriminate]. eauto.
  - split; [|split; [eapply zero_analyze_dedup; eauto|]].
    + eapply (analyze_dedup_live env prog PK RAW); [| | | |exact PO|exact AN]; rewrite EP; intros i d.
      * apply (load_one info stack_io code st P i d TO).
      * apply load_target.
      * apply load_fall.
      * apply (load_jd info st i d TU TD).
    + unfold analyze_dedup in AN. destruct (analyze_local env (initial prog)) as [pl|] eqn:E1; [|discriminate]. destruct (analyze_global env pl) as [pg|] eqn:E2; [|discriminate].
      destruct (dedup_blocks ord (length prog) (b_snaps pl) pg) as [pd|] eqn:E3; [|discriminate]. split; [|eauto].
      destruct (KL pg) as (K & _); [unfold analyze; rewrite E1; exact E2|].
      eapply kept_trans; [exact K|]. eapply kept_trans; [exact (kept_dedup _ _ _ _ _ E3)|exact (kept_refresh _ _ AN)].
Qed.
Lemma edges_go p istanbul i d t u : ready p -> nth_error (b_insts p) i = Some d -> is_dead d = false -> edge p i t -> leads (b_redirects p) t u ->
  goes_to (b_dyn p) istanbul (b_insts p) i u d.
Proof.
  intros RD Hd D ED LE. pose proof RD as (LI & RI & XR & FL & RB). apply leads_ends in LE; [|apply (ri_keys _ RI)].
  assert (TG : forall d0, nth_error (b_insts p) i = Some d0 -> d_op d0 = 0x56 \/ d_op d0 = 0x57 -> d0 = d /\ is_jump d = true).
  { intros d0 H O. assert (d0 = d) by congruence. subst d0. split; [reflexivity|]. unfold is_jump, OP_JUMP, OP_JUMPI. lia. }
  destruct ED as [d0 H -> NO DI UN CC|d0 H O FS FI FM ->|d0 ts H O FS FI FM ML Hin|d0 e H O FS He Oe].
  - assert (d0 = d) by congruence. subst d0. eapply fall_goes; eauto. apply goes_on; assumption.
  - destruct (TG d0 H O) as [-> J]. eapply jump_goes; eauto. exists d. split; [exact Hd|]. split; [unfold is_static_jump; rewrite J, FS; reflexivity|]. split; [exact FI|]. rewrite FM. reflexivity.
  - destruct (TG d0 H O) as [-> J]. eapply jump_goes; eauto. exists d. split; [exact Hd|]. split; [unfold is_static_jump; rewrite J, FS; reflexivity|]. split; [exact FI|]. rewrite FM. eauto.
  - destruct (TG d0 H O) as [-> J]. eapply dynamic_goes; eauto. exists e. split; [exact He|]. unfold is_jumpdest, OP_JUMPDEST. lia.
Qed.

(** C07 and C08 for every bytecode of at most 65536 bytes, analysed with or without deduplication and
    dead store elimination: whatever the bodies compute, as long as control goes along the edges of the
    analysed program, the code with its checks per section and the code that checks every instruction
    have the same runs, from the start of the contract and from every point where a CALL or CREATE
    resumes. Static gas and prepaid gas of an instruction fit 16 bits (see [C07_saturation_refuted]). *)
Theorem C07_contracts {X R} info stack_io key lim code env prog ord p inspect l istanbul extra (sem : nat -> Z -> Z -> X -> outcome X R) i g h x t f :
  loaded info stack_io key lim code env prog -> tables_live info stack_io -> (forall op, evm_effect (stack_io op)) ->
  Z.of_nat (length code) <= 65536 ->
  analysed ord env prog p ->
  (l = b_insts p \/ exists p', dead_store_elim inspect (a_const env) p = Some p' /\ l = b_insts p') ->
  charges istanbul extra sem l -> along_edges sem p ->
  (forall i d, nth_error prog i = Some d -> 0 <= d_gas d /\ d_gas d + extra i <= 65535) ->
  starts p i -> 0 <= g -> 0 <= h <= 1024 ->
  run (ref_step sem istanbul l) (mkM i g h x) t f <->
  run (comp_step sem istanbul extra (construct_sections (b_dyn p) istanbul extra l)) (mkM i g h x) t f.
Proof.
  intros L TL EFF SM AN HL CH AE GAS ST Hg Hh. destruct (analysed_ready _ _ _ _ _ _ _ _ _ L TL AN) as (RD & Z0 & [KL KN] & p0 & RF).
  assert (N : noops (b_insts p) l).
  { destruct HL as [-> |(p' & DE & ->)]; [split; [reflexivity|intros; left; congruence]|].
    destruct (C18_marks_only_stack_instructions inspect (a_const env) p0 p p' RF DE) as (LL & _ & HM). split; [exact LL|].
    intros k d d' H H'. destruct (HM k d d' H H') as [->|(-> & _)]; auto. }
  assert (BACK : forall k d', nth_error l k = Some d' -> exists d, nth_error (b_insts p) k = Some d /\ (d' = d \/ d' = set_noop d)).
  { intros k d' H'. destruct (nth_error (b_insts p) k) as [d|] eqn:H.
    - exists d. split; [reflexivity|]. exact (proj2 N k d d' H H').
    - apply nth_error_None in H. assert ((k < length l)%nat) by (apply nth_error_Some; congruence). pose proof (proj1 N). lia. }
  assert (FACT : forall k d', nth_error l k = Some d' -> exists d0, nth_error prog k = Some d0 /\ d_gas d' = d_gas d0 /\ d_io d' = d_io d0 /\
             d_gas_section d' = 0 /\ f_head (d_flags d') = false /\ evm_effect (d_io d0)).
  { intros k d' H'. destruct (BACK k d' H') as (d & H & E). destruct (KN k d H) as (d0 & H0 & KK). exists d0. split; [exact H0|].
    destruct L as (TK & B & LEN & KEY & LD). destruct (loaded_effect info stack_io code key lim EFF B env prog LD k d0 H0) as (A1 & _ & A3 & A4).
    destruct KK as (_ & K1 & _ & K2 & K3 & _ & _ & _ & _ & K4 & _). destruct E as [-> | ->]; cbn; rewrite ?K1, ?K2, ?K3, ?K4; auto. }
  assert (GO : forall k d' tt uu, nth_error l k = Some d' -> is_dead d' = false -> edge p k tt -> leads (b_redirects p) tt uu -> goes_to (b_dyn p) istanbul l k uu d').
  { intros k d' tt uu H' D' ED LE. destruct (BACK k d' H') as (d & H & E). assert (D : is_dead d = false) by (destruct E as [-> | ->]; exact D').
    eapply goes_noops; [exact N|exact H|exact H'|]. exact (edges_go p istanbul k d tt uu RD H D ED LE). }
  apply C07_sections_unobservable; try assumption.
  - apply Forall_forall. intros d' Hd. apply In_nth_error in Hd as (k & Hk). destruct (FACT k d' Hk) as (d0 & H0 & E1 & E2 & E3 & E4 & (A & B & _)).
    rewrite E1, E2. destruct (GAS k d0 H0). repeat split; auto; tauto.
  - destruct CH as [C1 C2 C3 C4 C5]. constructor; try assumption. intros k d' g0 h0 x0 sp gv j x' H' D' HS.
    destruct (C3 k d' g0 h0 x0 sp gv j x' H' HS) as (A1 & A2 & A3). split; [exact A1|]. split; [exact A2|]. split; [|exact A3].
    assert (AL : alive p k). { destruct (BACK k d' H') as (d & H & E). exists d. split; [exact H|]. destruct E as [-> | ->]; exact D'. }
    destruct (AE k g0 h0 x0 sp gv j x' AL HS) as (tt & ED & LE). exact (GO k d' tt j H' D' ED LE).
  - intros k d' Hk. destruct (FACT k d' Hk) as (d0 & H0 & E1 & _). rewrite E1. apply (GAS k d0 H0).
  - rewrite (proj1 N), KL. destruct L as (TK & B & LEN & KEY & LD). pose proof (loaded_length info stack_io code key lim EFF env prog LD). lia.
  - destruct ST as [-> |(k & d & tt & H & D & O & ED & LE)]; [eapply entry_noops; [exact N|apply zero_entry; exact Z0]|].
    assert (H' : exists d', nth_error l k = Some d') by (destruct (nth_error l k) as [d'|] eqn:E; [eauto|apply nth_error_None in E; rewrite (proj1 N) in E; assert ((k < length (b_insts p))%nat) by (apply nth_error_Some; congruence); lia]).
    destruct H' as (d' & H').
    assert (SAME : d_op d' = d_op d /\ is_dead d' = false) by (destruct (proj2 N k d d' H H') as [-> | ->]; auto). destruct SAME as (O' & D').
    destruct (GO k d' tt i H' D' ED LE) as [(-> & e & He & De)|(EN & _)]; [|exact EN].
    exists e. split; [exact He|]. split; [exact De|]. right. rewrite (prev_live_here l k d' H' D'). unfold ends_section, may_suspend, OP_CALL, OP_CALLCODE, OP_DELEGATECALL, OP_STATICCALL, OP_CREATE, OP_CREATE2.
    rewrite O'. apply orb_true_iff. left. apply orb_true_iff. left. clear -O. cbn [In] in O. lia.
Qed.
Print Assumptions C07_contracts.

(** Non-trivial bodies exist for every analysed program: STOP-like instructions stop, a jump with one
    target takes it (a JUMPI as the next of a list of decisions says), the others go on. *)
Definition walk_sem (p : bc) (i : nat) (g h : Z) (x : list bool) : outcome (list bool) unit :=
  let to t x := ONext 0 0 (match lookup t (b_redirects p) with Some v => v | None => t end) x in
  match nth_error (b_insts p) i with
  | Some d => let target := f_static (d_flags d) && negb (f_invalid (d_flags d)) && negb (f_multi (d_flags d)) in
              if f_disabled (d_flags d) || f_unknown (d_flags d) || (d_op d =? 0xfe) then OFail
              else if ends_frame (d_op d) then OStop 0 tt x
              else if d_op d =? 0x56 then if target then to (d_target d) x else OFail
              else if d_op d =? 0x57 then
                if f_constcond (d_flags d) then OFail
                else match x with true :: x' => if target then to (d_target d) x' else OFail | false :: x' => to (S i) x' | [] => OFail end
              else to (S i) x
  | None => OFail
  end.
Lemma walk_edges p : ready p -> along_edges (walk_sem p) p.
Proof.
  intros RD i g h x sp gv j x' (d & Hd & D). unfold walk_sem. rewrite Hd. pose proof RD as (LI & RI & XR & FL & RB).
  assert (TO : forall t, leads (b_redirects p) t (match lookup t (b_redirects p) with Some v => v | None => t end)).
  { intros t. apply leads_ends; [apply (ri_keys _ RI)|]. apply flat_root, FL. }
  destruct (f_disabled (d_flags d)) eqn:F1; [discriminate|]. destruct (f_unknown (d_flags d)) eqn:F2; [discriminate|]. cbn [orb].
  destruct (Z.eqb_spec (d_op d) 0xfe) as [|N0]; [discriminate|]. destruct (ends_frame (d_op d)) eqn:EF; [discriminate|].
  assert (ONE : forall y y' : list bool, d_op d = 0x56 \/ d_op d = 0x57 -> f_static (d_flags d) && negb (f_invalid (d_flags d)) && negb (f_multi (d_flags d)) = true ->
    @ONext (list bool) unit 0 0 (match lookup (d_target d) (b_redirects p) with Some v => v | None => d_target d end) y = ONext sp gv j y' -> exists t, edge p i t /\ leads (b_redirects p) t j).
  { intros y y' O T E. injection E as <- <- <- <-. exists (d_target d). split; [|apply TO]. apply andb_true_iff in T as [T FM]. apply andb_true_iff in T as [FS FI].
    apply negb_true_iff in FM. apply negb_true_iff in FI. eapply (edge_one p i _ d); try eassumption; reflexivity. }
  assert (NXT : forall y y' : list bool, d_op d <> 0x56 -> (d_op d = 0x57 -> f_constcond (d_flags d) = false) ->
    @ONext (list bool) unit 0 0 (match lookup (S i) (b_redirects p) with Some v => v | None => S i end) y = ONext sp gv j y' -> exists t, edge p i t /\ leads (b_redirects p) t j).
  { intros y y' O C E. injection E as <- <- <- <-. exists (S i). split; [|apply TO]. unfold ends_frame in EF. cbn [existsb] in EF.
    apply (edge_next p i (S i) d); try assumption; try reflexivity. cbn [In]. lia. }
  destruct (Z.eqb_spec (d_op d) 0x56) as [O|O].
  - destruct (f_static (d_flags d) && negb (f_invalid (d_flags d)) && negb (f_multi (d_flags d))) eqn:T; [|discriminate]. intros E. eapply ONE; eauto.
  - destruct (Z.eqb_spec (d_op d) 0x57) as [O'|O']; [|intros E; eapply NXT; eauto; intros; contradiction].
    destruct (f_constcond (d_flags d)) eqn:CC; [discriminate|]. destruct x as [|[] x]; [discriminate| |intros E; eapply NXT; eauto].
    destruct (f_static (d_flags d) && negb (f_invalid (d_flags d)) && negb (f_multi (d_flags d))) eqn:T; [|discriminate]. intros E. eapply ONE; eauto.
Qed.
Lemma walk_charges p istanbul : charges istanbul (fun _ => 0) (walk_sem p) (b_insts p).
Proof.
  constructor; try (intros; reflexivity || lia).
  - intros i d g h x sp gv j x' Hd. unfold walk_sem. rewrite Hd. repeat match goal with |- context [if ?b then _ else _] => destruct b end;
      try (destruct x as [|[] x]); intros E; try discriminate; injection E as <- <- _ _; lia.
  - intros i d g h x sp r x' Hd. unfold walk_sem. rewrite Hd. destruct (_ || _ || _); [discriminate|]. destruct (ends_frame (d_op d)) eqn:EF.
    + intros E. injection E as <- _ _. split; [lia|reflexivity].
    + repeat match goal with |- context [if ?b then _ else _] => destruct b end; try (destruct x as [|[] x]); discriminate.
Qed.

(** They meet all hypotheses on a deduplicated contract: the JUMPI at 12 falls through to the removed
    instruction 13, which was redirected to instruction 4; the run below takes the first JUMPI and not
    the second, hence passes that edge, and ends at the RETURN at 8. *)
Definition gas_check (prog : list idata) : bool := forallb (fun d => (0 <=? d_gas d) && (d_gas d <=? 65535)) prog.
Fixpoint steps {X R} (step : mstate X -> list (mstate X) * mres X R) (n : nat) (s : mstate X) : option (list (mstate X) * mres X R) :=
  match n with
  | O => None
  | S n' => let (o, r) := step s in
            match r with MNext s' => option_map (fun q => (o ++ fst q, snd q)) (steps step n' s') | _ => Some (o, r) end
  end.
Lemma steps_run {X R} (step : mstate X -> list (mstate X) * mres X R) n : forall s o r, steps step n s = Some (o, r) -> run step s o r.
Proof.
  induction n as [|n IH]; intros s o r E; [discriminate|]. cbn in E. destruct (step s) as [o1 r1] eqn:ES. destruct r1 as [s'|g r1 x|].
  - destruct (steps step n s') as [[o2 r2]|] eqn:E2; [|discriminate]. cbn in E. injection E as <- <-. eapply run_next; [exact ES|apply IH, E2].
  - injection E as <- <-. apply run_done. exact ES.
  - injection E as <- <-. apply run_fail. exact ES.
Qed.
Lemma walk_check :
  match load demo_info demo_io (fun v => v) 1000 dd_code2 with
  | Some (env, prog) => match analyze_dedup (@rev _) env prog with
      | Some p => gas_check prog && match lookup 13 (b_redirects p) with Some j => (j =? 4)%nat | None => false end
          && match steps (comp_step (walk_sem p) true (fun _ => 0) (construct_sections (b_dyn p) true (fun _ => 0) (b_insts p))) 40 (mkM 0%nat 1000 0 [true; false]) with
             | Some (_, MDone g _ []) => (0 <? g) && (g <? 1000)
             | _ => false end
      | None => false end
  | None => false end = true.
Proof. vm_compute. reflexivity. Qed.
Example C07_contracts_ex : exists env prog p, loaded demo_info demo_io (fun v => v) 1000 dd_code2 env prog /\ tables_live demo_info demo_io /\
  (forall op, evm_effect (demo_io op)) /\ analysed (@rev _) env prog p /\ charges true (fun _ => 0) (walk_sem p) (b_insts p) /\ along_edges (walk_sem p) p /\
  (forall i d, nth_error prog i = Some d -> 0 <= d_gas d /\ d_gas d + 0 <= 65535) /\ lookup 13 (b_redirects p) = Some 4%nat /\
  exists o g r, 0 < g < 1000 /\ run (comp_step (walk_sem p) true (fun _ => 0) (construct_sections (b_dyn p) true (fun _ => 0) (b_insts p))) (mkM 0 1000 0 [true; false]) o (MDone g r []).
Proof.
  destruct C17_ex_hyp as (PO & env & prog & L). pose proof walk_check as CK.
  assert (EL : load demo_info demo_io (fun v => v) 1000 dd_code2 = Some (env, prog)) by (destruct L as (_ & _ & _ & _ & X); exact X).
  rewrite EL in CK. clear EL. destruct (analyze_dedup (@rev _) env prog) as [p|] eqn:EA; [|discriminate CK]. exists env, prog, p.
  assert (AN : analysed (@rev _) env prog p) by (right; split; [exact PO|exact EA]).
  destruct C17_live_ex as (TL & _). destruct (analysed_ready _ _ _ _ _ _ _ _ _ L TL AN) as (RD & _).
  apply andb_true_iff in CK as [CK C3]. apply andb_true_iff in CK as [C1 C2].
  split; [exact L|]. split; [exact TL|]. split; [exact demo_effects|]. split; [exact AN|]. split; [apply walk_charges|]. split; [apply walk_edges, RD|].
  split.
  { intros i d H. unfold gas_check in C1. rewrite forallb_forall in C1. specialize (C1 d (nth_error_In _ _ H)). lia. }
  split; [destruct (lookup 13 (b_redirects p)) as [j|]; [|discriminate C2]; f_equal; apply Nat.eqb_eq, C2|].
  destruct (steps _ 40 _) as [[o r]|] eqn:ES in C3; [|discriminate C3]. destruct r as [|g r [|b x]|]; try discriminate C3.
  exists o, g, r. split; [lia|]. eapply steps_run, ES.
Qed.
