(** Properties C16-C17: block deduplication. *)
From Verif Require Import ProgramModel JumpModel OpcodeSpec FlowSpec CfgProof ArithSpec BlockProof ProgramProof AnalysisProof DemoTables BlockProps DedupModel DedupProof DedupRedir DedupLive BudgetSpec DedupStart.
From Coq Require Import ZifyBool Permutation.
Open Scope Z_scope.

(** ** C16. *)
Section Loaded.
  Context {Y : Type} (info : Z -> opinfo) (stack_io : Z -> Z * Z) (key : Z -> Z) (lim : Z) (code : list Z)
          (env : aenv) (prog : list idata) (sem : nat -> list Z -> Y -> option (list Z * Y)) (y0 : Y).
  Hypothesis L : loaded info stack_io key lim code env prog.
  Hypothesis SO : sem_ok prog (a_const env) sem (a_codelen env).
  Notation run := (DemoTables.run prog (a_const env) (a_dest env) sem).

  (** Blocks grouped for merging in the first round have the same successors, and executed from the
      same state they go through the same states, instruction by instruction, up to the terminator; a
      JUMP at the end leads to the same place.
      Partial: only for blocks in which every constant of a PUSH3 .. PUSH32 has a handle whose low byte
      is not zero (the claim is refuted below without this) and for the groups of the first round. *)
  Theorem C16_merged_blocks_partial p g a b : sem_uniform prog sem -> shallow env prog sem y0 -> analyze env prog = Some p ->
    In g (groups p) -> In a g -> In b g ->
    exists bla blb, nth_error (b_blocks p) a = Some bla /\ nth_error (b_blocks p) b = Some blb /\ bk_succs bla = bk_succs blb /\
      (long_ok prog bla -> long_ok prog blb -> let n := (bk_end bla - bk_start bla)%nat in
        n = (bk_end blb - bk_start blb)%nat /\
        exists ta tb, nth_error prog (terminator bla) = Some ta /\ nth_error prog (terminator blb) = Some tb /\ alike ta tb /\
        forall st y,
          (forall k, (k < n)%nat -> match run k (bk_start bla, st, y), run k (bk_start blb, st, y) with
                              | Some (i, st1, y1), Some (j, st2, y2) => i = (bk_start bla + k)%nat /\ j = (bk_start blb + k)%nat /\ st1 = st2 /\ y1 = y2
                              | None, None => True
                              | _, _ => False
                              end) /\
          (d_op ta = 0x56 -> run n (bk_start bla, st, y) = run n (bk_start blb, st, y))).
  Proof.
    intros SU SH HA Hg Ia Ib. destruct (sound_analysis info stack_io key lim code env prog sem y0 L SO p SH HA) as [OK _].
    destruct L as (TK & B & LEN & KEY & LD).
    destruct (group_alike prog p (pr_skel _ _ _ _ _ _ (co_pre _ _ _ _ _ _ OK))
      (fun b bl H => conj (block_bounds _ _ _ _ _ p OK b bl H) (block_chain _ _ _ _ _ p OK b bl H))
      (fun i d n => load_inline info stack_io code key lim B env prog LD i d n)
      (fun i d => load_range info stack_io code key lim B env prog LD i d) g a b Hg Ia Ib) as (bla & blb & Na & Nb & Es & HAL).
    exists bla, blb. split; [exact Na|]. split; [exact Nb|]. split; [exact Es|]. intros La Lb n. destruct (HAL La Lb) as [En AL].
    split; [exact En|]. pose proof (block_bounds _ _ _ _ _ p OK a bla Na) as Ba. pose proof (block_bounds _ _ _ _ _ p OK b blb Nb) as Bb.
    destruct (AL (n - 1)%nat) as (ta & tb & Ta & Tb & AT & _); [unfold n; lia|].
    replace (bk_start bla + (n - 1))%nat with (terminator bla) in Ta by (unfold n, terminator; lia).
    replace (bk_start blb + (n - 1))%nat with (terminator blb) in Tb by (unfold n, terminator; lia).
    exists ta, tb. split; [exact Ta|]. split; [exact Tb|]. split; [exact AT|]. intros st y.
    destruct (run_alike prog (a_const env) (a_dest env) sem (load_uniform info stack_io code key lim B LEN env prog LD) SU n (bk_start bla) (bk_start blb) AL st y)
      as (R1 & R2 & _).
    split; [exact R1|]. intros OJ. apply R2; [unfold n; lia|]. intros d Hd.
    replace (bk_start bla + (n - 1))%nat with (terminator bla) in Hd by (unfold n, terminator; lia). congruence.
  Qed.
End Loaded.
Print Assumptions C16_merged_blocks_partial.

(** Two different blocks with the same fingerprint: [PUSH3 0x800000; MSTORE; ..] and
    [PUSH3 0; DUP1; MSTORE; ..] (the handle of 0x800000 prints as 0x80 0x80, that of 0 as 0x80, and
    0x80 is DUP1). *)
Definition dd_code : list Z :=
  [0x36; 0x36; 0x60; 13; 0x57]                                  (* 0: CALLDATASIZE x 2; PUSH1 13; JUMPI *)
  ++ [0x62; 0x80; 0; 0; 0x52; 0x5f; 0x5f; 0xf3]                 (* 5: PUSH3 0x800000; MSTORE; PUSH0 x 2; RETURN *)
  ++ [0x5b; 0x34; 0x60; 28; 0x57]                               (* 13: JUMPDEST; CALLVALUE; PUSH1 28; JUMPI *)
  ++ [0x62; 0; 0; 0; 0x80; 0x52; 0x5f; 0x5f; 0xf3; 0x00; 0x5b; 0x00]. (* 18: PUSH3 0; DUP1; MSTORE; PUSH0 x 2; RETURN *)

(** CALLDATASIZE pushes 1, CALLVALUE pushes 0, MSTORE records its address. *)
Definition dd_sem (prog : list idata) (i : nat) (args : list Z) (y : Z) : option (list Z * Z) :=
  match nth_error prog i with
  | Some d => if d_op d =? 0x36 then Some ([1], y)
              else if d_op d =? 0x34 then Some ([0], y)
              else if d_op d =? 0x5b then Some ([], y)
              else if d_op d =? 0x52 then Some ([], List.hd 0 args)
              else None
  | None => None
  end.
Definition dd_io_check (prog : list idata) : bool :=
  forallb (fun d => if (d_op d =? 0x36) || (d_op d =? 0x34) then snd (d_io d) =? 1
                    else if (d_op d =? 0x5b) || (d_op d =? 0x52) then snd (d_io d) =? 0 else true) prog.
Lemma dd_sem_ok prog const len : dd_io_check prog = true -> sem_ok prog const (dd_sem prog) len.
Proof.
  unfold dd_io_check. intros A. rewrite forallb_forall in A. constructor; unfold dd_sem.
  - intros i d args y outs y' H. rewrite H. specialize (A d (nth_error_In _ _ H)). cbv beta in A. intros H0.
    assert (W1 : forall v, v = 0 \/ v = 1 -> ArithSpec.is_word v) by (intros v [-> | ->]; split; reflexivity || discriminate).
    destruct (Z.eqb_spec (d_op d) 0x36) as [E|]; [|destruct (Z.eqb_spec (d_op d) 0x34) as [E|]; [|destruct (Z.eqb_spec (d_op d) 0x5b) as [E|];
      [|destruct (Z.eqb_spec (d_op d) 0x52) as [E|]; [|discriminate]]]]; try rewrite E in A; cbn in A; injection H0 as <- <-; cbn [length];
      (split; [lia|]); repeat constructor; apply W1; auto.
  - intros i d o args y outs y' r H H0. rewrite H.
    assert (X : (d_op d =? 0x36) = false /\ (d_op d =? 0x34) = false /\ (d_op d =? 0x5b) = false /\ (d_op d =? 0x52) = false)
      by (rewrite H0; destruct o; repeat split; reflexivity).
    destruct X as (-> & -> & -> & ->). discriminate.
  - intros i d args y outs y' H H0. rewrite H, H0. discriminate.
  - intros i d args y outs y' H H0. rewrite H, H0. discriminate.
Qed.
Lemma dd_sem_uniform prog : sem_uniform prog (dd_sem prog).
Proof. intros i j d1 d2 args y H1 H2 [E _] _. unfold dd_sem. rewrite H1, H2, E. reflexivity. Qed.

Lemma dd_check :
  match load demo_info demo_io (fun v => v) 1000 dd_code with
  | Some (env, prog) =>
      match analyze_dedup (fun g => g) env prog with
      | Some p =>
          dd_io_check prog
          && match lookup 13 (b_redirects p) with Some j => (j =? 4)%nat | None => false end
          && state_eqb (DemoTables.run prog (a_const env) (a_dest env) (dd_sem prog) 8 (0%nat, [], 7)) 13 [1] 7
          && state_eqb (DemoTables.run prog (a_const env) (a_dest env) (dd_sem prog) 5 (13%nat, [1], 7)) 18 [0; 0; 1] 0
          && state_eqb (DemoTables.run prog (a_const env) (a_dest env) (dd_sem prog) 4 (4%nat, [1], 7)) 8 [0; 0] 0x800000
          && match nth_error prog 18, nth_error prog 8 with Some d, Some e => (d_op d =? 0xf3) && (d_op e =? 0xf3) | _, _ => false end
      | None => false
      end
  | None => false
  end = true.
Proof. vm_compute. reflexivity. Qed.

(** Deduplication sends control from instruction [i] to instruction [j]; an execution reaches [i]; run
    from there the two sides return with different memory writes. *)
Theorem C16_merged_blocks_refuted :
  exists info stack_io key lim code env prog (sem : nat -> list Z -> Z -> option (list Z * Z)) y0 p i j st y n m i' j' st1 st2 y1 y2 d e,
    loaded info stack_io key lim code env prog /\ sem_ok prog (a_const env) sem (a_codelen env) /\ sem_uniform prog sem /\
    analyze_dedup (fun g => g) env prog = Some p /\ lookup i (b_redirects p) = Some j /\
    reach prog (a_const env) (a_dest env) sem y0 i st y /\
    DemoTables.run prog (a_const env) (a_dest env) sem n (i, st, y) = Some (i', st1, y1) /\ nth_error prog i' = Some d /\ d_op d = 0xf3 /\
    DemoTables.run prog (a_const env) (a_dest env) sem m (j, st, y) = Some (j', st2, y2) /\ nth_error prog j' = Some e /\ d_op e = 0xf3 /\
    y1 <> y2.
Proof.
  pose proof dd_check as H. destruct (load demo_info demo_io (fun v => v) 1000 dd_code) as [[env prog]|] eqn:EL; [|discriminate].
  destruct (analyze_dedup (fun g => g) env prog) as [p|] eqn:EA; [|discriminate].
  repeat (apply andb_true_iff in H as [H ?]).
  destruct (lookup 13 (b_redirects p)) as [j|] eqn:Er; [|discriminate].
  destruct (nth_error prog 18) as [d|] eqn:Ed; [|discriminate]. destruct (nth_error prog 8) as [e|] eqn:Ee; [|discriminate].
  repeat match goal with X : state_eqb _ _ _ _ = true |- _ => apply state_eqb_eq in X end.
  assert (j = 4%nat) by (apply Nat.eqb_eq; assumption). subst j.
  exists demo_info, demo_io, (fun v => v), 1000, dd_code, env, prog, (dd_sem prog), 7, p, 13%nat, 4%nat, [1], 7, 5%nat, 4%nat, 18%nat, 8%nat, [0; 0; 1], [0; 0], 0, 0x800000, d, e.
  split.
  { split; [exact demo_tables_ok|]. split; [apply bytes_check; vm_compute; reflexivity|]. split; [vm_compute; reflexivity|]. split; [auto|exact EL]. }
  split; [apply dd_sem_ok; assumption|]. split; [apply dd_sem_uniform|]. split; [exact EA|]. split; [exact Er|].
  split; [eapply run_from_start; eassumption|]. split; [assumption|]. split; [assumption|]. split; [lia|]. split; [assumption|].
  split; [assumption|]. split; [lia|discriminate].
Qed.
Print Assumptions C16_merged_blocks_refuted.

(** The hypotheses of the partial theorem are met: the same contract with constants whose handles end
    in a non-zero byte has a group of two blocks. *)
Definition dd_code2 : list Z :=
  [0x36; 0x36; 0x60; 13; 0x57] ++ [0x62; 0x80; 0; 1; 0x52; 0x5f; 0x5f; 0xf3] ++ [0x5b; 0x34; 0x60; 27; 0x57]
  ++ [0x62; 0x80; 0; 1; 0x52; 0x5f; 0x5f; 0xf3; 0x00; 0x5b; 0x00].
Definition long_check (prog : list idata) : bool :=
  forallb (fun d => (min_imm_len (d_op d) <? 3)%nat || negb (d_data d mod 256 =? 0)) prog.
Example C16_ex :
  match load demo_info demo_io (fun v => v) 1000 dd_code2 with
  | Some (env, prog) =>
      match analyze env prog with
      | Some p => dd_io_check prog && depth_check prog (a_const env) (a_dest env) (dd_sem prog) 64 30 (0%nat, [], 7)
                  && long_check prog && existsb (nats_eqb [1%nat; 3%nat]) (groups p)
      | None => false
      end
  | None => false
  end = true.
Proof. vm_compute. reflexivity. Qed.
Example C16_ex_hyp : exists env prog p g, loaded demo_info demo_io (fun v => v) 1000 dd_code2 env prog /\
  sem_ok prog (a_const env) (dd_sem prog) (a_codelen env) /\ sem_uniform prog (dd_sem prog) /\ shallow env prog (dd_sem prog) 7 /\
  analyze env prog = Some p /\ In g (groups p) /\ g = [1%nat; 3%nat] /\ (forall bl, long_ok prog bl).
Proof.
  pose proof C16_ex as H. destruct (load demo_info demo_io (fun v => v) 1000 dd_code2) as [[env prog]|] eqn:EL; [|discriminate].
  destruct (analyze env prog) as [p|] eqn:EA; [|discriminate].
  repeat (apply andb_true_iff in H as [H ?]).
  match goal with X : existsb _ _ = true |- _ => apply existsb_exists in X as (g & Hg & Eg) end. apply nats_eqb_eq in Eg. subst g.
  exists env, prog, p, [1%nat; 3%nat]. split.
  { split; [exact demo_tables_ok|]. split; [apply bytes_check; vm_compute; reflexivity|]. split; [vm_compute; reflexivity|]. split; [auto|exact EL]. }
  split; [apply dd_sem_ok; assumption|]. split; [apply dd_sem_uniform|]. split; [intros _; eapply depth_check_reach; eassumption|].
  split; [exact EA|]. split; [exact Hg|]. split; [reflexivity|].
  intros bl i d _ Hd Hm E. match goal with X : long_check prog = true |- _ => unfold long_check in X; rewrite forallb_forall in X; specialize (X d (nth_error_In _ _ Hd)); rename X into HX end.
  apply orb_true_iff in HX as [HX|HX]; [apply Nat.ltb_lt in HX; lia|]. rewrite E in HX. discriminate.
Qed.

(** ** C17. *)
(** Following the redirects from [t] ends at [u]. *)
Inductive leads (r : list (nat * nat)) : nat -> nat -> Prop :=
| leads_here t : (forall v, ~ In (t, v) r) -> leads r t t
| leads_next t n u : In (t, n) r -> leads r n u -> leads r t u.
Lemma lookup_no k r : lookup k r = None <-> forall v, ~ In (k, v) r.
Proof.
  rewrite lookup_none, in_map_iff. split.
  - intros H v Hin. apply H. exists (k, v). auto.
  - intros H ([a b] & <- & Hin). exact (H b Hin).
Qed.
Lemma leads_ends r t u : NoDup (map fst r) -> leads r t u <-> ends r t u.
Proof.
  intros N. split; induction 1 as [t H|t n u H E IH].
  - constructor. apply lookup_no. exact H.
  - eapply ends_next; [apply in_lookup; eassumption|exact IH].
  - constructor. apply lookup_no. exact H.
  - eapply leads_next; [apply lookup_in; exact H|exact IH].
Qed.

(** Deduplication of any bytecode, visiting the groups of a round in any order, ends without panicking
    after at most one round per instruction. Afterwards: every redirect goes from a removed (dead)
    instruction to an earlier one that is not redirected further and has the same opcode; following the
    redirects from anywhere ends, in one place, after at most one hop, which is what the CFG
    construction and the translator use. *)
Theorem C17_redirects info stack_io key lim code env prog ord :
  loaded info stack_io key lim code env prog -> (forall gs, Permutation (ord gs) gs) ->
  exists p, analyze_dedup ord env prog = Some p /\
    (forall k v, In (k, v) (b_redirects p) -> (v < k)%nat /\ (forall w, ~ In (v, w) (b_redirects p)) /\
       (forall d, nth_error (b_insts p) k = Some d -> is_dead d = true) /\
       (forall d e, nth_error prog k = Some d -> nth_error prog v = Some e -> d_op d = d_op e)) /\
    (forall t, exists u, leads (b_redirects p) t u /\ (forall u', leads (b_redirects p) t u' -> u' = u) /\
       u = (match lookup t (b_redirects p) with Some v => v | None => t end) /\ (u <= t)%nat).
Proof.
  intros L PO. destruct (loaded_facts info stack_io key lim code env prog L) as (PK & RAW & KEY & _).
  destruct (analyze_dedup_ok ord env prog PO RAW (analyze_total prog env PK RAW KEY)) as (p & E & RI & FL & SKP).
  exists p. split; [exact E|]. destruct RI as [D M KD SH ND]. split.
  - intros k v Hin. split; [exact (D k v Hin)|]. split; [apply lookup_no; eapply FL; apply in_lookup; eassumption|]. split.
    + intros d Hd. destruct (is_dead d) eqn:X; [reflexivity|]. exfalso. apply (KD k v Hin). exists d. auto.
    + intros d e Hd He.
      assert (OP : forall i x, nth_error prog i = Some x -> exists x', nth_error (b_insts p) i = Some x' /\ d_op x' = d_op x).
      { intros i x Hx. apply (map_nth_error d_op) in Hx. rewrite <- SKP, nth_error_map in Hx. destruct (nth_error (b_insts p) i) as [x'|]; [|discriminate].
        exists x'. split; [reflexivity|]. cbn in Hx. congruence. }
      destruct (OP _ _ Hd) as (d' & Hd' & <-). destruct (OP _ _ He) as (e' & He' & <-). eapply SH; eauto.
  - intros t. exists (match lookup t (b_redirects p) with Some v => v | None => t end).
    pose proof (flat_root (b_redirects p) t FL) as EN. split; [apply leads_ends; assumption|]. split; [|split; [reflexivity|]].
    + intros u' Hu. apply leads_ends in Hu; [|exact ND]. eapply ends_det; eauto.
    + destruct (lookup t (b_redirects p)) as [v|] eqn:Ev; [|lia]. apply lookup_in in Ev. specialize (D _ _ Ev). lia.
Qed.
Print Assumptions C17_redirects.

(** Control may go from the live instruction [i] to [t], before redirects: to the next instruction, to a recorded target
    of a resolved jump, or, from a jump that is not resolved, to any JUMPDEST. *)
Inductive edge (p : bc) (i t : nat) : Prop :=
| edge_next d : nth_error (b_insts p) i = Some d -> t = S i ->
    ~ In (d_op d) [0x00; 0x56; 0xf3; 0xfd; 0xfe; 0xff] -> f_disabled (d_flags d) = false -> f_unknown (d_flags d) = false ->
    (d_op d = 0x57 -> f_constcond (d_flags d) = false) -> edge p i t
| edge_one d : nth_error (b_insts p) i = Some d -> d_op d = 0x56 \/ d_op d = 0x57 -> f_static (d_flags d) = true -> f_invalid (d_flags d) = false ->
    f_multi (d_flags d) = false -> t = d_target d -> edge p i t
| edge_many d ts : nth_error (b_insts p) i = Some d -> d_op d = 0x56 \/ d_op d = 0x57 -> f_static (d_flags d) = true -> f_invalid (d_flags d) = false ->
    f_multi (d_flags d) = true -> b_multi p i = Some ts -> In t ts -> edge p i t
| edge_any d e : nth_error (b_insts p) i = Some d -> d_op d = 0x56 \/ d_op d = 0x57 -> f_static (d_flags d) = false ->
    nth_error (b_insts p) t = Some e -> d_op e = 0x5b -> edge p i t.
Definition alive (p : bc) (i : nat) : Prop := exists d, nth_error (b_insts p) i = Some d /\ f_dead (d_flags d) = false.
(** What is required of revm's tables beyond [tables_ok]: JUMPDEST exists in every hardfork; the instructions evaluated at
    compile time leave at most one word. *)
Definition tables_live (info : Z -> opinfo) (stack_io : Z -> Z * Z) : Prop :=
  oi_unknown (info 0x5b) = false /\ oi_disabled (info 0x5b) = false /\ forall op, evaluable op -> snd (stack_io op) <= 1.

Lemma goes_on d : ~ In (d_op d) [0x00; 0x56; 0xf3; 0xfd; 0xfe; 0xff] -> f_disabled (d_flags d) = false -> f_unknown (d_flags d) = false ->
  (d_op d = 0x57 -> f_constcond (d_flags d) = false) -> can_fall_through d = true.
Proof.
  cbn [In]. intros N D U C. unfold can_fall_through, is_diverging, has_const_jumpi_condition, OP_JUMP, OP_JUMPI, OP_STOP, OP_RETURN, OP_REVERT, OP_INVALID, OP_SELFDESTRUCT.
  rewrite D, U. destruct (Z.eqb_spec (d_op d) 0x57) as [E|E]; [rewrite (C E)|]; lia.
Qed.
Lemma loaded_nonempty info stack_io key lim code env prog : loaded info stack_io key lim code env prog -> prog <> [].
Proof.
  intros (_ & _ & _ & _ & LD). unfold load in LD. destruct (parse (active_of info) stack_io code) as [st|]; [|discriminate].
  apply (f_equal (fun o => match o with Some x => x | None => (env, prog) end)) in LD. cbn match in LD. apply pair_equal_spec in LD as [_ <-].
  unfold pad_insts. destruct (last _ None) as [d|] eqn:E; [|discriminate]. destruct (map (idata_of info) (p_insts st)); [discriminate|]. destruct (can_fall_through d); discriminate.
Qed.

(** After deduplication every edge from a live instruction, followed through the redirects, leads to a live instruction at
    which a block starts, or simply to the next instruction; the entry point is live. *)
Theorem C17_live info stack_io key lim code env prog ord p :
  loaded info stack_io key lim code env prog -> tables_live info stack_io -> (forall gs, Permutation (ord gs) gs) ->
  analyze_dedup ord env prog = Some p ->
  alive p 0 /\
  forall i t, alive p i -> edge p i t -> exists u, leads (b_redirects p) t u /\ alive p u /\
    ((u = S i /\ t = S i) \/ exists b bl, nth_error (b_blocks p) b = Some bl /\ bk_start bl = u).
Proof.
  intros L (TU & TD & TO) PO E. destruct (loaded_facts info stack_io key lim code env prog L) as (PK & RAW & KEY & _).
  assert (RD : ready p).
  { destruct L as (TK & B & LEN & _ & LD). unfold load in LD. destruct (parse (active_of info) stack_io code) as [st|] eqn:P; [|discriminate].
    apply (f_equal (fun o => match o with Some x => x | None => (env, prog) end)) in LD. cbn match in LD. apply pair_equal_spec in LD as [_ EP].
    eapply (analyze_dedup_live env prog PK RAW); [| | | |exact PO|exact E]; rewrite <- EP; intros i d.
    - apply (load_one info stack_io code st P i d TO).
    - apply load_target.
    - apply load_fall.
    - apply (load_jd info st i d TU TD). }
  pose proof RD as (LI & RI & XR & FL & RB).
  assert (NE : prog <> []) by (eapply loaded_nonempty; exact L).
  assert (LK : forall k, live_at (b_insts p) k -> lookup k (b_redirects p) = None).
  { intros k Hk. destruct (lookup k (b_redirects p)) as [v|] eqn:X; [|reflexivity]. apply lookup_in in X. exfalso. exact (ri_dead _ RI k v X Hk). }
  assert (ZERO : alive p 0) by (eapply zero_analyze_dedup; [exact PO|exact RAW|exact NE|exact E]).
  assert (HERE : forall k, lookup k (b_redirects p) = None -> leads (b_redirects p) k k) by (intros k X; constructor; apply lookup_no, X).
  assert (TARGET : forall i t, alive p i -> tg p i t -> exists u, leads (b_redirects p) t u /\ alive p u /\ exists b bl, nth_error (b_blocks p) b = Some bl /\ bk_start bl = u).
  { intros i t Hi T. destruct (lookup t (b_redirects p)) as [v|] eqn:X.
    - assert (EN : ends (b_redirects p) t v) by (pose proof (flat_root _ t FL) as Y; rewrite X in Y; exact Y).
      assert (H : hd p v) by (apply (lv_redir _ LI t v); [congruence|exact EN]). exists v. split; [apply leads_ends; [apply (ri_keys _ RI)|exact EN]|].
      split; [apply H|apply hd_block; assumption].
    - pose proof (lv_jump _ LI i t Hi T X) as H. exists t. split; [apply HERE, X|]. split; [apply H|apply hd_block; assumption]. }
  split; [exact ZERO|]. intros i t Hi ED. destruct ED as [d Hd -> NO DI UN CC|d Hd O FS FI FM ->|d ts Hd O FS FI FM ML Hin|d e Hd O FS He Oe].
  - assert (CF : can_fall_through d = true) by (apply goes_on; assumption).
    assert (Dd : is_dead d = false) by (destruct Hi as (d' & Hd' & X); assert (d' = d) by congruence; subst; exact X).
    destruct (lookup (S i) (b_redirects p)) as [v|] eqn:X.
    + assert (EN : ends (b_redirects p) (S i) v) by (pose proof (flat_root _ (S i) FL) as Y; rewrite X in Y; exact Y).
      assert (H : hd p v) by (apply (lv_redir _ LI (S i) v); [congruence|exact EN]). exists v. split; [apply leads_ends; [apply (ri_keys _ RI)|exact EN]|].
      split; [apply H|right; apply hd_block; assumption].
    + exists (S i). split; [apply HERE, X|]. split; [exact (lv_fall _ LI i d Hd Dd CF X)|left; auto].
  - destruct (TARGET i (d_target d) Hi) as (u & A & B & C); [|exists u; auto]. exists d. split; [exact Hd|]. split; [unfold is_static_jump, is_jump, OP_JUMP, OP_JUMPI; rewrite FS; lia|].
    split; [exact FI|]. rewrite FM. reflexivity.
  - destruct (TARGET i t Hi) as (u & A & B & C); [|exists u; auto]. exists d. split; [exact Hd|]. split; [unfold is_static_jump, is_jump, OP_JUMP, OP_JUMPI; rewrite FS; lia|].
    split; [exact FI|]. rewrite FM. eauto.
  - assert (DY : dynlive p). { exists i, d. split; [exact Hd|]. destruct Hi as (d' & Hd' & X). assert (d' = d) by congruence. subst d'.
      unfold unresolved, is_jump, is_dead, OP_JUMP, OP_JUMPI. rewrite FS, X. lia. }
    assert (OJ : opj p t) by (exists e; split; [exact He|unfold is_jumpdest, OP_JUMPDEST; lia]).
    pose proof (lv_dyn _ LI DY t OJ) as LV. exists t. split; [apply HERE, LK, LV|]. split; [exact LV|]. right. apply hd_block; [exact RD|].
    split; [exact LV|]. left. split; [exact OJ|left; exact DY].
Qed.
Print Assumptions C17_live.

(** [compress_redirects] in two different iteration orders of the same map: the same ends of chains as
    before, hence the same map. *)
Theorem C17_order r1 r2 keys1 keys2 : (forall k v, In (k, v) r1 -> (v < k)%nat) -> NoDup (map fst r1) -> Permutation r1 r2 ->
  Permutation keys1 (map fst r1) -> Permutation keys2 (map fst r1) ->
  exists s1 s2, compress keys1 r1 = Some s1 /\ compress keys2 r2 = Some s2 /\
    (forall k, lookup k s1 = lookup k s2) /\ (forall k u, In k (map fst r1) -> lookup k s1 = Some u <-> leads r1 k u).
Proof.
  intros D ND P K1 K2.
  assert (ND2 : NoDup (map fst r2)) by (eapply Permutation_NoDup; [apply Permutation_map, P|exact ND]).
  assert (LK : forall k, lookup k r1 = lookup k r2).
  { intros k. destruct (lookup k r1) as [v|] eqn:E.
    - symmetry. apply in_lookup; [|exact ND2]. eapply Permutation_in; [exact P|]. apply lookup_in, E.
    - symmetry. apply lookup_no. intros v Hin. apply (proj1 (lookup_no k r1) E v). eapply Permutation_in; [symmetry; exact P|exact Hin]. }
  assert (D2 : downward r2) by (intros k v Hin; apply D; eapply Permutation_in; [symmetry; exact P|exact Hin]).
  assert (EE : forall t u, ends r1 t u <-> ends r2 t u).
  { intros t u. split; induction 1 as [t H|t n u H E IH]; try (constructor; congruence); eapply ends_next; try eassumption; congruence. }
  assert (IK : forall k, In k (map fst r1) -> lookup k r1 <> None) by (intros k Hk X; apply lookup_none in X; auto).
  destruct (compress_spec keys1 r1 D) as (s1 & E1 & _ & F1 & _ & V1 & _). { intros k Hk. apply IK. eapply Permutation_in; [exact K1|exact Hk]. }
  destruct (compress_spec keys2 r2 D2) as (s2 & E2 & _ & F2 & _ & V2 & _). { intros k Hk. rewrite <- LK. apply IK. eapply Permutation_in; [exact K2|exact Hk]. }
  exists s1, s2. split; [exact E1|]. split; [exact E2|].
  assert (A1 : forall k, In k (map fst r1) -> exists u, lookup k s1 = Some u /\ ends r1 k u).
  { intros k Hk. destruct (lookup k s1) as [u|] eqn:E; [|apply lookup_none in E; rewrite F1 in E; contradiction]. exists u. split; [reflexivity|].
    apply V1; [exact E|]. left. eapply Permutation_in; [symmetry; exact K1|exact Hk]. }
  assert (A2 : forall k, In k (map fst r1) -> exists u, lookup k s2 = Some u /\ ends r1 k u).
  { intros k Hk. destruct (lookup k s2) as [u|] eqn:E.
    - exists u. split; [reflexivity|]. apply EE. apply V2; [exact E|]. left. eapply Permutation_in; [symmetry; exact K2|exact Hk].
    - apply lookup_none in E. rewrite F2 in E. exfalso. apply E. eapply Permutation_in; [apply Permutation_map, P|exact Hk]. }
  split.
  - intros k. destruct (in_dec Nat.eq_dec k (map fst r1)) as [I|I].
    + destruct (A1 k I) as (u1 & -> & X1). destruct (A2 k I) as (u2 & -> & X2). f_equal. eapply ends_det; eauto.
    + transitivity (@None nat); [apply lookup_none; rewrite F1; exact I|symmetry; apply lookup_none; rewrite F2].
      intros X. apply I. eapply Permutation_in; [symmetry; apply Permutation_map, P|exact X].
  - intros k u I. rewrite leads_ends by exact ND. destruct (A1 k I) as (u1 & -> & X1). split; [intros X; injection X as <-; exact X1|].
    intros X. f_equal. eapply ends_det; eauto.
Qed.
Print Assumptions C17_order.

(** A chain 9 -> 7 -> 3 and 8 -> 3. *)
Example C17_order_ex : let r := [(9, 7); (7, 3); (8, 3)]%nat in
  (forall k v, In (k, v) r -> (v < k)%nat) /\ NoDup (map fst r) /\ compress [9; 7; 8]%nat r = Some [(9, 3); (7, 3); (8, 3)]%nat.
Proof.
  cbn. split; [|split; [|reflexivity]].
  - intros k v [H|[H|[H|[]]]]; injection H as <- <-; lia.
  - repeat constructor; cbn; intuition lia.
Qed.
(** The witness above has a redirect. *)
Example C17_ex : match load demo_info demo_io (fun v => v) 1000 dd_code2 with
  | Some (env, prog) => match analyze_dedup (@rev _) env prog with
                        | Some p => match b_redirects p with [(k, v)] => (k =? 13)%nat && (v =? 4)%nat | _ => false end
                        | None => false end
  | None => false end = true.
Proof. vm_compute. reflexivity. Qed.
Example C17_ex_hyp : (forall gs : list (list nat), Permutation (rev gs) gs) /\
  exists env prog, loaded demo_info demo_io (fun v => v) 1000 dd_code2 env prog.
Proof.
  split; [intros gs; symmetry; apply Permutation_rev|]. destruct C16_ex_hyp as (env & prog & _ & _ & H & _). eauto.
Qed.
(** There the JUMPI at 12 falls through to the removed instruction 13. *)
Example C17_live_ex : tables_live demo_info demo_io /\ exists env prog p, loaded demo_info demo_io (fun v => v) 1000 dd_code2 env prog /\
  analyze_dedup (@rev _) env prog = Some p /\ alive p 12 /\ edge p 12 13 /\ ~ alive p 13 /\ In (13%nat, 4%nat) (b_redirects p).
Proof.
  split.
  { split; [reflexivity|]. split; [reflexivity|]. intros op EV. unfold evaluable in EV. unfold demo_io.
    replace ((0x80 <=? op) && (op <=? 0x8f)) with false by lia. replace ((0x90 <=? op) && (op <=? 0x9f)) with false by lia. clear EV.
    repeat match goal with |- snd (if ?b then _ else _) <= 1 => destruct b; [cbn; discriminate|] end. cbn; discriminate. }
  destruct C17_ex_hyp as (_ & env & prog & L). exists env, prog.
  assert (EL : load demo_info demo_io (fun v => v) 1000 dd_code2 = Some (env, prog)) by (destruct L as (_ & _ & _ & _ & X); exact X).
  assert (CK : match load demo_info demo_io (fun v => v) 1000 dd_code2 with
    | Some (env, prog) => match analyze_dedup (@rev _) env prog with
        | Some p => match nth_error (b_insts p) 12, nth_error (b_insts p) 13, b_redirects p with
                    | Some d, Some e, [(a, b)] => (d_op d =? 0x57) && negb (f_dead (d_flags d)) && negb (f_disabled (d_flags d)) && negb (f_unknown (d_flags d))
                        && negb (f_constcond (d_flags d)) && f_dead (d_flags e) && (a =? 13)%nat && (b =? 4)%nat
                    | _, _, _ => false end
        | None => false end
    | None => false end = true) by (vm_compute; reflexivity).
  rewrite EL in CK. clear EL. destruct (analyze_dedup (@rev _) env prog) as [p|]; [|discriminate CK]. exists p. split; [exact L|]. split; [reflexivity|].
  destruct (nth_error (b_insts p) 12) as [d|] eqn:Hd; [|discriminate]. destruct (nth_error (b_insts p) 13) as [e|] eqn:He; [|discriminate].
  destruct (b_redirects p) as [|[a b] [|]]; try discriminate CK. repeat (apply andb_true_iff in CK as [CK ?]).
  repeat match goal with X : negb _ = true |- _ => apply negb_true_iff in X end. apply Z.eqb_eq in CK.
  split; [exists d; auto|]. split; [apply (edge_next p 12 13 d); auto; rewrite CK; cbn; lia|]. split; [intros (e' & He' & X); congruence|].
  left. f_equal; apply Nat.eqb_eq; assumption.
Qed.
