(** Property C10: memory checks skipped or replaced by the analysis of constant accesses. *)
From Verif Require Import FlowSpec InstModel BlockModel BlockProof CfgProof AnalysisProof GlobalProof ProgramModel ProgramProof BlockProps DemoTables.
From Verif Require Import GasMemModel GasMemSpec GasMemProof MemSecModel MemSecSpec MemSecProof.
From Coq Require Import ZifyBool Lia.
Open Scope Z_scope.

(** An access already covered costs nothing and changes nothing. *)
Lemma touch_covered g w off len : 0 <= g -> (off + len + 31) / 32 <= w -> evm_touch g w off len = Some (g, w).
Proof. intros G H. unfold evm_touch. rewrite Z.max_l by exact H. replace (C_mem w - C_mem w) with 0 by lia. replace (g <? 0) with false by lia. f_equal. f_equal. lia. Qed.
(** The direct resize does what the checked one does. *)
Lemma direct_same m off len : 0 <= mm_words m < 2 ^ 32 -> 0 < len < 2 ^ 63 -> 0 <= off ->
  (let o := u256_to_u64_saturating off 63 in match ensure_memory m ((o + len) mod U64) 0 with Some m' => Some (o, m') | None => None end) = build_ensure_memory m off len.
Proof.
  intros W L O. cbn zeta. unfold build_ensure_memory. set (o := u256_to_u64_saturating off 63). cbv zeta.
  destruct (32 * mm_words m <? (o + len) mod U64) eqn:E; [reflexivity|].
  unfold ensure_memory. set (n := (o + len) mod U64) in *. assert (0 <= n < U64) by (apply Z.mod_pos_bound; reflexivity).
  assert (num_words (sat_u64 (n + 0)) <= mm_words m).
  { unfold num_words, sat_u64. change U64 with 18446744073709551616 in *. change (2 ^ 32) with 4294967296 in W. lia. }
  replace (mm_words m <? num_words (sat_u64 (n + 0))) with false by lia. reflexivity.
Qed.

Section C10.
  Context {Y : Type} (info : Z -> opinfo) (stack_io : Z -> Z * Z) (key : Z -> Z) (lim : Z) (code : list Z)
          (env : aenv) (prog : list idata) (sem : nat -> list Z -> Y -> option (list Z * Y)) (y0 : Y) (msize : Y -> Z).
  Hypothesis L : loaded info stack_io key lim code env prog.
  Hypothesis SO : sem_ok prog (a_const env) sem (a_codelen env).
  Hypothesis MS : mem_sem prog sem msize y0.
  Notation R := (reach prog (a_const env) (a_dest env) sem y0).

  (** The result of either analysis: the block-local one, or the global one for a shallow contract. *)
  Definition analysed_ok (p : bc) : Prop :=
    analyze_local env (initial prog) = Some p \/ (shallow env prog sem y0 /\ analyze env prog = Some p).
  Lemma analysed_sound p : analysed_ok p -> cfg_ok prog (a_const env) (a_dest env) sem y0 p /\ good prog env sem y0 (b_snaps p).
  Proof. intros [H|[SH H]]; [eapply sound_local|eapply sound_analysis]; eauto. Qed.

  (** The fixpoint over blocks terminates for every contract. *)
  Theorem C10_total p : analysed_ok p -> exists fuel, memory_sections p fuel <> None.
  Proof.
    intros H. destruct (analysed_sound p H) as [OK _].
    destruct (entry_states_total p (length (b_blocks p)) eq_refl) as [f Hf].
    { intros b bl b' Hb Hin. destruct (succ_start _ _ _ _ _ p OK _ _ _ Hb Hin) as (bl' & Hb' & _). apply nth_lt in Hb'. exact Hb'. }
    exists f. unfold memory_sections. destruct (entry_states p f); [discriminate|congruence].
  Qed.

  Section At.
    Variables (p : bc) (fuel : nat) (secs : nat -> msection).
    Hypothesis A : analysed_ok p.
    Hypothesis TOPICS : topics_unknown p.
    Hypothesis S : memory_sections p fuel = Some secs.
    Lemma fix_exists : exists est, entry_states p fuel = Some est.
    Proof. unfold memory_sections in S. destruct (entry_states p fuel) as [est|]; [exists est; reflexivity|discriminate]. Qed.

    (** C10, skipped checks: whenever the compiled code leaves out the memory check of an instruction,
        memory is already large enough for all its ranges in every execution, by any path. *)
    Theorem C10_skip_partial i st y d : R i st y -> nth_error (b_insts p) i = Some d ->
      (Z.to_nat (mem_operands (d_op d)) <= length st)%nat -> can_skip p secs i = true -> evm_mem (d_op d) st <= msize y.
    Proof.
      intros HR Hn Hl Hk. destruct (analysed_sound p A) as [OK G]. destruct (loaded_facts _ _ _ _ _ _ _ L) as (PO & _).
      destruct fix_exists as [est FIX]. eapply skip_ok; eauto.
    Qed.
    (** C10, precomputed sizes: whenever the code takes the direct path for MLOAD, MSTORE or MSTORE8, the
        access does grow memory, to the precomputed size (or to one beyond 2^63, which no gas pays for). *)
    Theorem C10_direct_partial i st y d : R i st y -> nth_error (b_insts p) i = Some d ->
      (Z.to_nat (mem_operands (d_op d)) <= length st)%nat -> 0x51 <= d_op d <= 0x53 -> sec_direct (secs i) <> 0 ->
      msize y < evm_mem (d_op d) st /\ (evm_mem (d_op d) st < 2 ^ 63 -> sec_direct (secs i) = evm_mem (d_op d) st).
    Proof.
      intros HR Hn Hl Ho Hk. destruct (analysed_sound p A) as [OK G]. destruct (loaded_facts _ _ _ _ _ _ _ L) as (PO & _).
      destruct fix_exists as [est FIX]. eapply direct_ok; eauto.
    Qed.
    (** C10, whole access: by whichever of the three paths, the code emitted for MLOAD, MSTORE and MSTORE8
        succeeds exactly when the EVM's access does, at the true offset, with the EVM's gas and size. *)
    Theorem C10_access_partial i off st y d m len : R i (off :: st) y -> nth_error (b_insts p) i = Some d ->
      ((d_op d = 0x51 \/ d_op d = 0x52 /\ st <> []) /\ len = 32 \/ d_op d = 0x53 /\ st <> [] /\ len = 1) ->
      mem_ok m -> 32 * mm_words m = msize y ->
      match evm_touch (mm_gas m) (mm_words m) off len with
      | None => emitted_access p secs i m off len = None
      | Some (g', w') => emitted_access p secs i m off len = Some (off, mkMem g' w' (C_mem w'))
      end.
    Proof.
      intros HR Hn Hop Hm Hw. destruct (analysed_sound p A) as [OK G]. destruct (loaded_facts _ _ _ _ _ _ _ L) as (PO & _).
      pose proof (reach_words prog env sem y0 PO SO i (off :: st) y HR) as W0. inversion W0 as [|? ? Woff _]; subst.
      assert (Hlen : 0 < len < 2 ^ 63) by (destruct Hop as [[_ ->]|(_ & _ & ->)]; lia).
      assert (Hl : (Z.to_nat (mem_operands (d_op d)) <= length (off :: st))%nat).
      { destruct Hop as [[[-> |[-> N]] _]|(-> & N & _)]; cbn; [lia| |]; (destruct st; [congruence|cbn; lia]). }
      assert (Hev : evm_mem (d_op d) (off :: st) = 32 * ((off + len + 31) / 32)).
      { assert (0 <= (off + len + 31) / 32) by (unfold ArithSpec.is_word in Woff; lia).
        destruct Hop as [[[-> |[-> _]] ->]|(-> & _ & ->)]; unfold evm_mem, evm_ranges, range_size; cbn [map fold_right nth Z.eqb];
          (match goal with |- context [Z.eqb ?a 0] => replace (Z.eqb a 0) with false by lia | _ => idtac end); lia. }
      pose proof (mem_ok_small m Hm) as Hsm. pose proof Hm as (Hg & Hw0 & Hp & Ht).
      unfold emitted_access. cbv zeta. destruct (can_skip p secs i) eqn:K.
      - pose proof (C10_skip_partial i (off :: st) y d HR Hn Hl K) as C. rewrite Hev in C.
        rewrite touch_covered by lia. unfold ArithSpec.is_word in Woff. unfold u256_to_u64_saturating. change (2 ^ 32) with 4294967296 in Hsm.
        replace (off <=? 2 ^ 63 - 1) with true by lia. rewrite Z.mod_small by (change U64 with 18446744073709551616; lia).
        rewrite <- Hp. destruct m; reflexivity.
      - pose proof (build_ensure_memory_spec m off len Hm Woff Hlen) as B.
        destruct (negb (sec_direct (secs i) =? 0)); [|exact B].
        rewrite <- (direct_same m off len) in B; [exact B|lia|lia|unfold ArithSpec.is_word in Woff; lia].
    Qed.
  End At.
End C10.
Print Assumptions C10_total.
Print Assumptions C10_skip_partial.
Print Assumptions C10_direct_partial.
Print Assumptions C10_access_partial.

(** ** Example semantics: the state is the memory size. *)
Definition msem (prog : list idata) (i : nat) (args : list Z) (y : Z) : option (list Z * Z) :=
  match nth_error prog i with
  | Some d =>
      if existsb (Z.eqb (d_op d)) [0x36; 0x51; 0x52; 0x5b; 0xa4] then
        let y' := Z.max y (evm_mem (d_op d) args) in
        if y' <? 2 ^ 63 then Some (repeat 0 (Z.to_nat (snd (d_io d))), y') else None
      else None
  | None => None
  end.
Lemma msem_ok prog const len : sem_ok prog const (msem prog) len.
Proof.
  constructor; unfold msem.
  - intros i d args y outs y' H. rewrite H. destruct (existsb _ _); [|discriminate]. cbv zeta. destruct (_ <? _); [|discriminate].
    intros E. injection E as <- _. split; [apply repeat_length|]. apply Forall_forall. intros x Hx. apply repeat_spec in Hx. subst. split; [lia|reflexivity].
  - intros i d o args y outs y' r H H0. rewrite H, H0. destruct o; discriminate.
  - intros i d args y outs y' H H0. rewrite H, H0. discriminate.
  - intros i d args y outs y' H H0. rewrite H, H0. discriminate.
Qed.
Definition mio_check (prog : list idata) : bool := forallb (fun d => mem_operands (d_op d) <=? fst (d_io d)) prog.
Lemma mmem_ok prog : mio_check prog = true -> mem_sem prog (msem prog) (fun y => y) 0.
Proof.
  unfold mio_check. intros C. rewrite forallb_forall in C. constructor; [reflexivity| |].
  - unfold msem. intros i d args y outs y' H. rewrite H. destruct (existsb _ _); [|discriminate]. cbv zeta. destruct (_ <? _) eqn:E; [|discriminate].
    intros X. injection X as _ <-. split; [reflexivity|lia].
  - intros i d H _. specialize (C d (nth_error_In _ _ H)). lia.
Qed.
Definition topics_check (p : bc) : bool :=
  forallb (fun i => match nth_error (b_insts p) i with
                    | Some d => if (0xa1 <=? d_op d) && (d_op d <=? 0xa4)
                                then match const_operand p i (Z.to_nat (d_op d - 0xa0 + 1)) with Some c => 2 ^ 64 <=? c | None => true end
                                else true
                    | None => true end) (seq 0 (length (b_insts p))).
Lemma topics_check_ok p : topics_check p = true -> topics_unknown p.
Proof.
  unfold topics_check. intros C i d c H Ho Hc. rewrite forallb_forall in C. specialize (C i ltac:(apply in_seq; apply nth_lt in H; lia)). cbv beta in C.
  rewrite H in C. replace ((0xa1 <=? d_op d) && (d_op d <=? 0xa4)) with true in C by lia. rewrite Hc in C. lia.
Qed.

(** ** Refutation (finding F18). *)
(** Two topics of the LOG4 are the constants 0x20 and 0x40; the analysis takes them for a memory range
    and leaves out the check of the MLOAD that follows. *)
Definition log_code : list Z :=
  [0x60; 0x20; 0x60; 0x40; 0x5f; 0x5f; 0x5f; 0x5f; 0xa4] (* PUSH1 0x20; PUSH1 0x40; PUSH0 x 4; LOG4 *)
  ++ [0x60; 0x20; 0x51; 0x00].                           (* PUSH1 0x20; MLOAD; STOP *)
Lemma log_check :
  match load demo_info demo_io (fun v => v) 1000 log_code with
  | Some (env, prog) =>
      match analyze env prog with
      | Some p =>
          match memory_sections p 10 with
          | Some secs =>
              mio_check prog && depth_check prog (a_const env) (a_dest env) (msem prog) 64 20 (0%nat, [], 0)
              && state_eqb (DemoTables.run prog (a_const env) (a_dest env) (msem prog) 8 (0%nat, [], 0)) 8 [0x20] 0
              && can_skip p secs 8
              && match nth_error (b_insts p) 8 with Some d => d_op d =? 0x51 | None => false end
          | None => false
          end
      | None => false
      end
  | None => false
  end = true.
Proof. vm_compute. reflexivity. Qed.
Theorem C10_skip_refuted :
  exists info stack_io key lim code env prog (sem : nat -> list Z -> Z -> option (list Z * Z)) y0 msize p fuel secs i st y d,
    loaded info stack_io key lim code env prog /\ sem_ok prog (a_const env) sem (a_codelen env) /\ mem_sem prog sem msize y0 /\
    analysed_ok env prog sem y0 p /\ memory_sections p fuel = Some secs /\
    reach prog (a_const env) (a_dest env) sem y0 i st y /\ nth_error (b_insts p) i = Some d /\
    d_op d = 0x51 /\ can_skip p secs i = true /\ msize y < evm_mem (d_op d) st.
Proof.
  pose proof log_check as H. destruct (load demo_info demo_io (fun v => v) 1000 log_code) as [[env prog]|] eqn:EL; [|discriminate].
  destruct (analyze env prog) as [p|] eqn:EA; [|discriminate]. destruct (memory_sections p 10) as [secs|] eqn:ES; [|discriminate].
  repeat (apply andb_true_iff in H as [H ?]).
  destruct (nth_error (b_insts p) 8) as [d|] eqn:Ed; [|discriminate].
  exists demo_info, demo_io, (fun v => v), 1000, log_code, env, prog, (msem prog), 0, (fun y => y), p, 10%nat, secs, 8%nat, [0x20], 0, d.
  split; [|split; [apply msem_ok|split; [apply mmem_ok; assumption|]]].
  { split; [exact demo_tables_ok|]. split; [apply bytes_check; vm_compute; reflexivity|]. split; [vm_compute; reflexivity|]. split; [auto|exact EL]. }
  split; [right; split; [intros _; eapply depth_check_reach; eassumption|exact EA]|]. split; [exact ES|].
  split; [eapply run_from_start, state_eqb_eq; eassumption|]. split; [exact Ed|].
  assert (E : d_op d = 0x51) by lia. split; [exact E|]. split; [assumption|]. rewrite E. reflexivity.
Qed.
Print Assumptions C10_skip_refuted.

(** ** The hypotheses are met. *)
(** MSTORE at 0x40 (direct), then on both sides of a branch a read that is covered (skipped): MLOAD 0x40
    after the join, and a LOG4 whose first two topics are large. *)
Definition mem_code : list Z :=
  [0x5f; 0x60; 0x40; 0x52]                 (* 0: PUSH0; PUSH1 0x40; MSTORE *)
  ++ [0x36; 0x60; 10; 0x57; 0x5f; 0x50]    (* 4: CALLDATASIZE; PUSH1 10; JUMPI; PUSH0; POP *)
  ++ [0x5b; 0x60; 0x40; 0x51; 0x50]        (* 10: JUMPDEST; PUSH1 0x40; MLOAD; POP *)
  ++ (0x7f :: repeat 0xff 32) ++ (0x7f :: repeat 0xff 32) ++ [0x5f; 0x5f; 0x60; 0x20; 0x5f; 0xa4; 0x00].
Example C10_ex :
  match load demo_info demo_io (fun v => v) 1000 mem_code with
  | Some (env, prog) =>
      match analyze env prog with
      | Some p =>
          match memory_sections p 10 with
          | Some secs =>
              mio_check prog && depth_check prog (a_const env) (a_dest env) (msem prog) 64 40 (0%nat, [], 0) && topics_check p
              && state_eqb (DemoTables.run prog (a_const env) (a_dest env) (msem prog) 2 (0%nat, [], 0)) 2 [0x40; 0] 0
              && (sec_direct (secs 2%nat) =? 0x60) && negb (can_skip p secs 2)
              && state_eqb (DemoTables.run prog (a_const env) (a_dest env) (msem prog) 10 (0%nat, [], 0)) 10 [0x40] 0x60
              && can_skip p secs 10 && (sec_direct (secs 10%nat) =? 0)
          | None => false
          end
      | None => false
      end
  | None => false
  end = true.
Proof. vm_compute. reflexivity. Qed.
Example C10_ex_hyp : exists env prog p secs, loaded demo_info demo_io (fun v => v) 1000 mem_code env prog /\
  sem_ok prog (a_const env) (msem prog) (a_codelen env) /\ mem_sem prog (msem prog) (fun y => y) 0 /\
  analysed_ok env prog (msem prog) 0 p /\ topics_unknown p /\ memory_sections p 10 = Some secs.
Proof.
  pose proof C10_ex as H. destruct (load demo_info demo_io (fun v => v) 1000 mem_code) as [[env prog]|] eqn:EL; [|discriminate].
  destruct (analyze env prog) as [p|] eqn:EA; [|discriminate]. destruct (memory_sections p 10) as [secs|] eqn:ES; [|discriminate].
  repeat (apply andb_true_iff in H as [H ?]). exists env, prog, p, secs.
  split; [|split; [apply msem_ok|split; [apply mmem_ok; assumption|]]].
  { split; [exact demo_tables_ok|]. split; [apply bytes_check; vm_compute; reflexivity|]. split; [vm_compute; reflexivity|]. split; [auto|exact EL]. }
  split; [right; split; [intros _; eapply depth_check_reach; eassumption|exact EA]|]. split; [apply topics_check_ok; assumption|exact ES].
Qed.
