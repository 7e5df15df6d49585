(** Property C55: the cached pointer to the start of memory. *)
From Verif Require Import ProgramModel InstModel BlockModel FlowSpec SummarySpec SummaryProps SectionsModel CfgProof BlockProof BlockProps DemoTables DseModel MemSecModel MemSecSpec MemSecProof MemSecProps
  MemBaseModel MemBaseSpec MemBaseProof.
From Coq Require Import Lia ZifyBool.
Open Scope Z_scope.

(** C55. In every execution, every MLOAD, MSTORE and MSTORE8 accesses memory through a pointer that is
    where memory is at that moment, although the pointer may have been loaded by an earlier instruction:
    whatever moved memory since then made the compiler forget it. In particular no such instruction is
    dropped. With or without dead store elimination, whichever arithmetic builtins were replaced.
    Partial: for executions the analysis may rely on ([shallow], deduplication off), and without LOG
    instructions with small constant topics, for which it is refuted below. *)
Theorem C55_base_partial {Y} info stack_io key lim code env prog (sem : nat -> list Z -> Y -> option (list Z * Y)) y0 msize
    p p' inspect istanbul extra fuel secs inlined i st y b v j st' y' b' d :
  loaded info stack_io key lim code env prog -> (forall op, evm_effect (stack_io op)) ->
  sem_ok prog (a_const env) sem (a_codelen env) -> mem_sem prog sem msize y0 -> shallow env prog sem y0 ->
  analyze env prog = Some p -> topics_unknown p ->
  p' = p \/ dead_store_elim inspect (a_const env) p = Some p' ->
  let q := finish_sections istanbul extra p' in
  memory_sections q fuel = Some secs ->
  let source := base_source q secs inlined in
  base_run prog (a_const env) (a_dest env) sem msize y0 source i st y b v ->
  evm_step prog (a_const env) (a_dest env) sem i st y = Some (j, st', y') -> base_moves prog msize i y y' b b' ->
  nth_error prog i = Some d -> d_op d = 0x51 \/ d_op d = 0x52 \/ d_op d = 0x53 ->
  exists k, source i = Some k /\ loads source i b' v k = b'.
Proof.
  intros L EFF SO MS SH AN TP HP q SE source HR HS BM H A.
  eapply (base_ok info stack_io key lim code env prog sem y0 msize L EFF SO MS SH p p' inspect istanbul extra fuel secs inlined AN TP HP SE); eauto.
  unfold is_access. lia.
Qed.
Print Assumptions C55_base_partial.

(** ** Executions in which memory moves whenever it grows (here its base is its size). *)
Fixpoint bsteps (prog : list idata) (env : aenv) (src : nat -> option nat) (n : nat) (s : nat * list Z * Z * (nat -> Z)) : option (nat * list Z * Z * (nat -> Z)) :=
  match n with
  | O => Some s
  | S n => let '(i, st, y, v) := s in
           match evm_step prog (a_const env) (a_dest env) (msem prog) i st y with
           | Some (j, st', y') => bsteps prog env src n (j, st', y', loads src i y' v)
           | None => None
           end
  end.
Lemma bsteps_run prog env src n : forall s i st y v, base_run prog (a_const env) (a_dest env) (msem prog) (fun y => y) 0 src (fst (fst (fst s))) (snd (fst (fst s))) (snd (fst s)) (snd (fst s)) (snd s) ->
  bsteps prog env src n s = Some (i, st, y, v) -> base_run prog (a_const env) (a_dest env) (msem prog) (fun y => y) 0 src i st y y v.
Proof.
  induction n as [|n IH]; intros [[[i0 st0] y1] v0] i st y v R E; cbn [bsteps fst snd] in *; [injection E as <- <- <- <-; exact R|].
  destruct (evm_step _ _ _ _ i0 st0 y1) as [[[j st'] y']|] eqn:ES; [|discriminate]. apply (IH _ i st y v) in E; [exact E|]. cbn [fst snd].
  eapply base_step; [exact R|exact ES|]. intros d _ _ M. exact M.
Qed.
Definition none : nat -> Z := fun _ => -1.
Definition bstart : nat * list Z * Z * (nat -> Z) := (0%nat, [], 0, none).
Lemma bsteps_start prog env src n i st y v : bsteps prog env src n bstart = Some (i, st, y, v) -> base_run prog (a_const env) (a_dest env) (msem prog) (fun y => y) 0 src i st y y v.
Proof. apply bsteps_run. apply base_start. Qed.

(** ** Refutation (finding F23, a consequence of F18). *)
(** The topics of the LOG4 are constant zeros, which the analysis reads as its memory range: an empty
    one. So the call of the builtin is not taken for one that may grow memory, and the MLOAD uses the
    pointer loaded by the MSTORE although the LOG4 moved memory. *)
Definition stale_code : list Z :=
  [0x5f; 0x5f; 0x52]                                                          (* PUSH0; PUSH0; MSTORE *)
  ++ [0x5f; 0x5f; 0x5f; 0x5f; 0x60; 0x01; 0x61; 0x10; 0x00; 0xa4]             (* PUSH0 x 4; PUSH1 1; PUSH2 0x1000; LOG4 *)
  ++ [0x5f; 0x51; 0x00].                                                      (* PUSH0; MLOAD; STOP *)
Definition is_src (o : option nat) (k : nat) : bool := match o with Some n => (n =? k)%nat | None => false end.
Lemma stale_check :
  match load demo_info demo_io (fun v => v) 1000 stale_code with
  | Some (env, prog) =>
      match analyze env prog with
      | Some p =>
          let q := finish_sections true (fun _ => 0) p in
          match memory_sections q 10 with
          | Some secs =>
              let src := base_source q secs (fun _ => false) in
              mio_check prog && depth_check prog (a_const env) (a_dest env) (msem prog) 64 20 (0%nat, [], 0)
              && is_src (src 11%nat) 2 && match nth_error prog 11 with Some d => d_op d =? 0x51 | None => false end
              && match bsteps prog env src 11 bstart with
                 | Some (i, st, y, v) =>
                     (i =? 11)%nat && match evm_step prog (a_const env) (a_dest env) (msem prog) i st y with
                                      | Some (j, st', y') => (y' =? y) && (y =? 0x1020) && (v 2%nat =? 0x20)
                                      | None => false
                                      end
                 | None => false
                 end
          | None => false
          end
      | None => false
      end
  | None => false
  end = true.
Proof. vm_compute. reflexivity. Qed.
Theorem C55_base_refuted :
  exists info stack_io key lim code env prog (sem : nat -> list Z -> Z -> option (list Z * Z)) y0 msize p istanbul extra fuel secs inlined i st y b v j st' y' b' d,
    let q := finish_sections istanbul extra p in
    let source := base_source q secs inlined in
    loaded info stack_io key lim code env prog /\ (forall op, evm_effect (stack_io op)) /\
    sem_ok prog (a_const env) sem (a_codelen env) /\ mem_sem prog sem msize y0 /\ shallow env prog sem y0 /\
    analyze env prog = Some p /\ memory_sections q fuel = Some secs /\
    base_run prog (a_const env) (a_dest env) sem msize y0 source i st y b v /\
    evm_step prog (a_const env) (a_dest env) sem i st y = Some (j, st', y') /\ base_moves prog msize i y y' b b' /\
    nth_error prog i = Some d /\ d_op d = 0x51 /\
    exists k, source i = Some k /\ loads source i b' v k <> b'.
Proof.
  pose proof stale_check as H. destruct (load demo_info demo_io (fun v => v) 1000 stale_code) as [[env prog]|] eqn:EL; [|discriminate].
  destruct (analyze env prog) as [p|] eqn:EA; [|discriminate]. cbv zeta in H. set (q := finish_sections true (fun _ => 0) p) in *.
  destruct (memory_sections q 10) as [secs|] eqn:ES; [|discriminate]. set (src := base_source q secs (fun _ => false)) in *.
  destruct (bsteps prog env src 11 bstart) as [[[[i st] y] v]|] eqn:EB; [|rewrite andb_false_r in H; discriminate].
  apply andb_true_iff in H as [H H1]. apply andb_true_iff in H1 as [H2 H1]. apply Nat.eqb_eq in H2. subst i.
  destruct (evm_step prog _ _ _ 11 st y) as [[[j st'] y']|] eqn:EE; [|discriminate].
  repeat (apply andb_true_iff in H as [H ?]). destruct (nth_error prog 11) as [d|] eqn:Ed; [|discriminate].
  exists demo_info, demo_io, (fun v => v), 1000, stale_code, env, prog, (msem prog), 0, (fun y => y), p, true, (fun _ => 0), 10%nat, secs, (fun _ => false),
    11%nat, st, y, y, v, j, st', y', y', d.
  split; [|split; [exact demo_effects|split; [apply msem_ok|split; [apply mmem_ok; assumption|]]]].
  { split; [exact demo_tables_ok|]. split; [apply bytes_check; vm_compute; reflexivity|]. split; [vm_compute; reflexivity|]. split; [auto|exact EL]. }
  split; [intros _; eapply depth_check_reach; eassumption|]. split; [exact EA|]. split; [exact ES|]. split; [exact (bsteps_start _ _ _ _ _ _ _ _ EB)|].
  split; [exact EE|]. split; [intros d1 _ _ M; exact M|]. split; [exact Ed|]. split; [lia|].
  assert (X : src 11%nat = Some 2%nat) by (destruct (src 11%nat) as [k|]; cbn [is_src] in *; [f_equal; lia|discriminate]).
  fold q. fold src. exists 2%nat. split; [exact X|]. unfold loads. rewrite X. cbn [Nat.eqb]. lia.
Qed.
Print Assumptions C55_base_refuted.

(** ** The hypotheses are met. *)
(** An MSTORE loads the pointer, an MLOAD uses it, a second MSTORE grows memory and loads it again, an
    MLOAD uses that; after the join of a branch the pointer is loaded once more and used twice. *)
Definition base_code : list Z :=
  [0x5f; 0x60; 0x40; 0x52; 0x60; 0x40; 0x51; 0x50]                  (* 0: PUSH0; PUSH1 0x40; MSTORE; PUSH1 0x40; MLOAD; POP *)
  ++ [0x5f; 0x60; 0x80; 0x52; 0x60; 0x40; 0x51; 0x50]               (* 8: PUSH0; PUSH1 0x80; MSTORE; PUSH1 0x40; MLOAD; POP *)
  ++ [0x36; 0x60; 22; 0x57; 0x5f; 0x50]                             (* 16: CALLDATASIZE; PUSH1 22; JUMPI; PUSH0; POP *)
  ++ [0x5b; 0x60; 0x40; 0x51; 0x50; 0x5f; 0x51; 0x00].              (* 22: JUMPDEST; PUSH1 0x40; MLOAD; POP; PUSH0; MLOAD; STOP *)
Lemma base_check :
  match load demo_info demo_io (fun v => v) 1000 base_code with
  | Some (env, prog) =>
      match analyze env prog with
      | Some p =>
          match dead_store_elim false (a_const env) p with
          | Some p' =>
              let q := finish_sections true (fun _ => 0) p' in
              match memory_sections q 10 with
              | Some secs =>
                  let src := base_source q secs (fun _ => false) in
                  mio_check prog && depth_check prog (a_const env) (a_dest env) (msem prog) 64 40 (0%nat, [], 0) && topics_check p
                  && is_src (src 2%nat) 2 && is_src (src 4%nat) 2 && is_src (src 8%nat) 8 && is_src (src 10%nat) 8 && is_src (src 19%nat) 19 && is_src (src 22%nat) 19
                  && match nth_error prog 10 with Some d => d_op d =? 0x51 | None => false end
                  && match bsteps prog env src 10 bstart with
                     | Some (i, st, y, v) => (i =? 10)%nat && (y =? 0xa0) && match evm_step prog (a_const env) (a_dest env) (msem prog) i st y with Some _ => true | None => false end
                     | None => false
                     end
              | None => false
              end
          | None => false
          end
      | None => false
      end
  | None => false
  end = true.
Proof. vm_compute. reflexivity. Qed.
Example C55_ex : exists env prog p p' secs st y v j st' y' d,
  let q := finish_sections true (fun _ => 0) p' in
  let source := base_source q secs (fun _ => false) in
  loaded demo_info demo_io (fun v => v) 1000 base_code env prog /\ (forall op, evm_effect (demo_io op)) /\
  sem_ok prog (a_const env) (msem prog) (a_codelen env) /\ mem_sem prog (msem prog) (fun y => y) 0 /\ shallow env prog (msem prog) 0 /\
  analyze env prog = Some p /\ topics_unknown p /\ dead_store_elim false (a_const env) p = Some p' /\ memory_sections q 10 = Some secs /\
  base_run prog (a_const env) (a_dest env) (msem prog) (fun y => y) 0 source 10 st y y v /\
  evm_step prog (a_const env) (a_dest env) (msem prog) 10 st y = Some (j, st', y') /\ base_moves prog (fun y => y) 10 y y' y y' /\
  nth_error prog 10 = Some d /\ d_op d = 0x51 /\
  source 10%nat = Some 8%nat /\ loads source 10 y' v 8%nat = y'.
Proof.
  pose proof base_check as H. destruct (load demo_info demo_io (fun v => v) 1000 base_code) as [[env prog]|] eqn:EL; [|discriminate].
  destruct (analyze env prog) as [p|] eqn:EA; [|discriminate]. destruct (dead_store_elim false (a_const env) p) as [p'|] eqn:ED; [|discriminate].
  cbv zeta in H. set (q := finish_sections true (fun _ => 0) p') in *.
  destruct (memory_sections q 10) as [secs|] eqn:ES; [|discriminate]. set (src := base_source q secs (fun _ => false)) in *.
  destruct (bsteps prog env src 10 bstart) as [[[[i st] y] v]|] eqn:EB; [|rewrite andb_false_r in H; discriminate].
  apply andb_true_iff in H as [H H1]. apply andb_true_iff in H1 as [H2 H1]. apply andb_true_iff in H2 as [H2 H3]. apply Nat.eqb_eq in H2. subst i.
  destruct (evm_step prog _ _ _ 10 st y) as [[[j st'] y']|] eqn:EE; [|discriminate].
  repeat (apply andb_true_iff in H as [H ?]). destruct (nth_error prog 10) as [d|] eqn:Ed; [|discriminate].
  assert (LD : loaded demo_info demo_io (fun v => v) 1000 base_code env prog).
  { split; [exact demo_tables_ok|]. split; [apply bytes_check; vm_compute; reflexivity|]. split; [vm_compute; reflexivity|]. split; [auto|exact EL]. }
  assert (SH : shallow env prog (msem prog) 0) by (intros _; eapply depth_check_reach; eassumption).
  assert (TU : topics_unknown p) by (apply topics_check_ok; assumption).
  assert (X : src 10%nat = Some 8%nat) by (destruct (src 10%nat) as [k|]; cbn [is_src] in *; [f_equal; lia|discriminate]).
  assert (OP : d_op d = 0x51) by lia.
  assert (MS : mem_sem prog (msem prog) (fun y => y) 0) by (apply mmem_ok; assumption).
  exists env, prog, p, p', secs, st, y, v, j, st', y', d. split; [exact LD|]. split; [exact demo_effects|]. split; [apply msem_ok|]. split; [exact MS|]. split; [exact SH|].
  split; [exact EA|]. split; [exact TU|]. split; [exact ED|]. split; [exact ES|]. split; [exact (bsteps_start _ _ _ _ _ _ _ _ EB)|]. split; [exact EE|].
  split; [intros d1 _ _ M; exact M|]. split; [exact Ed|]. split; [exact OP|]. split; [exact X|].
  destruct (C55_base_partial demo_info demo_io (fun v => v) 1000 base_code env prog (msem prog) 0 (fun y => y) p p' false true (fun _ => 0) 10 secs (fun _ => false)
              10 st y y v j st' y' y' d LD demo_effects (msem_ok _ _ _) MS SH EA TU (or_intror ED) ES (bsteps_start _ _ _ _ _ _ _ _ EB) EE (fun d1 _ _ M => M) Ed (or_introl OP)) as (k & K1 & K2).
  fold q in K1, K2. fold src in K1, K2. assert (k = 8%nat) by congruence. subst k. exact K2.
Qed.
