(** Property C18: dead store elimination. *)
From Verif Require Import DseModel DseSpec VStackProof CfgProof DedupRedir DseProof DseDemo DemoTables ProgramModel.
From Coq Require Import ZifyBool.
Import ListNotations.
Open Scope Z_scope.

Lemma refresh_blocks p0 p : refresh_cfg p0 = Some p -> wf_ranges (map rng (b_blocks p)) 0 (length (b_insts p)).
Proof.
  unfold refresh_cfg. destruct (recompute_reachable _) as [p1|]; [|discriminate]. destruct (mark_dead_code _ p1) as [p2|]; [|discriminate].
  destruct (compress_redirects p2) as [p3|]; [|discriminate]. intros E. injection E as <-. exact (proj1 (rebuilt_wf (rebuild_cfg p3) eq_refl)).
Qed.

(** C18. Take any analysed program, the block [bl] of it, the pass's result [p'], and any compiled form
    [vs] of the block's instructions after the pass. Whatever the EVM does on the block with every
    instruction executed, the compiled code does with the marked ones skipped: the same machine state
    (so the same operands for everything that reads the stack, including the stack a suspended call
    leaves behind), the same way of ending, and at the end the same stack, from every initial stack.
    Partial: the snapshots must be aligned with the operands, and the block's stack effect must fit the
    section summary; both are refuted without this below. *)
Theorem C18_dead_stores_unobservable_partial {W} inspect imm p0 p p' bl l l' (vs : list (vinst W)) nh w c st r :
  refresh_cfg p0 = Some p -> dead_store_elim inspect imm p = Some p' -> In bl (b_blocks p) ->
  items_at imm p (blk_insts bl) = Some l -> items_at imm p' (blk_insts bl) = Some l' ->
  Forall item_ok l -> Forall aligned l -> representable l ->
  Forall2 lowered l' vs -> Forall (fun v => inst_ok (unmark v)) vs ->
  heads_ok l vs -> ends_ok (map unmark vs) nh -> fits 0 0 0 vs -> starts_head vs ->
  in_memory c st -> facts_hold vs w st -> erun vs w st = Some r ->
  match r with
  | EHalt w' => vrun vs nh w c = Some (RHalt w')
  | ENext w' st' => exists c', vrun vs nh w c = Some (RNext w' c') /\ (nh = true -> in_memory c' st') /\
                               (last_exit vs = false -> represents c' st')
  end.
Proof.
  intros RF DE IN IL IL' IT AL RE LO OK HO EN FT SH IM FA ER.
  destruct (dse_blocks_spec inspect imm (b_blocks p) 0 p p' (refresh_blocks _ _ RF) DE) as (_ & _ & B).
  destruct (B bl IN) as (l0 & ds & E1 & E2 & E3). rewrite IL in E1. injection E1 as <-. rewrite IL' in E3. injection E3 as ->.
  exact (block_ok inspect l ds vs nh w c st r E2 IT AL RE LO OK HO EN FT SH IM FA ER).
Qed.
Print Assumptions C18_dead_stores_unobservable_partial.

(** C18, what the pass changes: nothing but the no-op mark, and the mark only on instructions that
    cannot halt, branch, suspend, read gas or touch the state. *)
Theorem C18_marks_only_stack_instructions inspect imm p0 p p' : refresh_cfg p0 = Some p -> dead_store_elim inspect imm p = Some p' ->
  length (b_insts p') = length (b_insts p) /\ (forall l, with_insts p l = with_insts p' l) /\
  forall i d d', nth_error (b_insts p) i = Some d -> nth_error (b_insts p') i = Some d' ->
    d' = d \/
    (d' = set_noop d /\ f_disabled (d_flags d) = false /\ f_unknown (d_flags d) = false /\
     is_branching d = false /\ ends_here d = false /\ d_op d <> 0x50 /\
     exists bl, In bl (b_blocks p) /\ (bk_start bl <= i < bk_end bl)%nat /\
     forall im, match shape_of (d_op d) im with ShOther => stack_only (d_op d) | ShCall | ShPop => False | _ => True end).
Proof.
  intros RF DE. destruct (dse_blocks_spec inspect imm (b_blocks p) 0 p p' (refresh_blocks _ _ RF) DE) as ((li & EP & LL) & O & B).
  split; [subst p'; exact LL|]. split; [subst p'; reflexivity|]. intros i d d' Hd Hd'.
  assert (DEC : (exists bl, In bl (b_blocks p) /\ (bk_start bl <= i < bk_end bl)%nat) \/ ~ (exists bl, In bl (b_blocks p) /\ (bk_start bl <= i < bk_end bl)%nat)).
  { destruct (existsb (fun bl => (bk_start bl <=? i)%nat && (i <? bk_end bl)%nat) (b_blocks p)) eqn:X.
    - left. apply existsb_exists in X as (bl & H & Y). exists bl. split; [exact H|lia].
    - right. intros (bl & H & Y). assert (existsb (fun bl => (bk_start bl <=? i)%nat && (i <? bk_end bl)%nat) (b_blocks p) = true); [|congruence].
      apply existsb_exists. exists bl. split; [exact H|lia]. }
  destruct DEC as [(bl & IN & R)|N]; [|left; rewrite O in Hd' by exact N; congruence].
  destruct (B bl IN) as (l & ds & E1 & E2 & E3). unfold blk_insts in E1, E3.
  destruct (proj1 (items_spec _ _ _ _ _) E1) as (L1 & H1). destruct (proj1 (items_spec _ _ _ _ _) E3) as (L3 & H3).
  set (k := (i - bk_start bl)%nat). specialize (H1 k ltac:(unfold k; lia)). specialize (H3 k ltac:(unfold k; lia)).
  replace (bk_start bl + k)%nat with i in H1, H3 by (unfold k; lia). unfold item_at in H1, H3. rewrite Hd in H1. rewrite Hd' in H3.
  destruct (nth_error ds k) as [dk|] eqn:Ek.
  2:{ apply nth_error_None in Ek. rewrite (kept_len _ _ (block_kept _ _ _ E2)) in Ek. unfold k in Ek. lia. }
  rewrite (remark_nth _ _ _ _ _ H1 Ek) in H3. injection H3 as <-.
  destruct (block_marked _ _ _ E2 k _ _ H1 Ek) as [->|(-> & M)]; [left; reflexivity|right]. cbn [it_d] in M |- *.
  destruct M as (M1 & M2 & M3 & M4 & M5 & M6). split; [reflexivity|]. repeat (split; [assumption|]). exists bl. repeat (split; [assumption|]). exact M6.
Qed.
Print Assumptions C18_marks_only_stack_instructions.

(** C18, no panic: the pass succeeds on every program whose blocks have summaries that fit. *)
Theorem C18_pass_total_partial inspect imm p0 p : refresh_cfg p0 = Some p ->
  (forall bl l, In bl (b_blocks p) -> items_at imm p (blk_insts bl) = Some l -> Forall item_ok l /\ Forall arity_ok l /\ representable l) ->
  exists p', dead_store_elim inspect imm p = Some p'.
Proof. intros RF H. exact (dse_blocks_total inspect imm (b_blocks p) 0 p (refresh_blocks _ _ RF) H). Qed.
Print Assumptions C18_pass_total_partial.

(** *** A block in which stores die, and finding F16.

    [demo] runs the analysis and the pass on a code and looks at the block starting at instruction
    [start], compiled by the small code generator of DseDemo. *)
Definition logs (r1 : option (eres Wd)) (r2 : option (res Wd)) : option (Wd * Wd) :=
  match r1, r2 with Some (EHalt a), Some (RHalt b) => Some (a, b) | _, _ => None end.
Definition block_at (p : bc) (start : nat) : option blk := find (fun b => (bk_start b =? start)%nat) (b_blocks p).
Definition demo (code : list Z) (start : nat) (st : list Z) : option (bool * list nat * Wd * Wd) :=
  match load demo_info demo_io (fun v => v) 1000000 code with
  | Some (env, prog) =>
    match analyze env prog with
    | Some p =>
      match dead_store_elim false (a_const env) p, block_at p start with
      | Some p', Some bl =>
        match items_at (a_const env) p (blk_insts bl), items_at (a_const env) p' (blk_insts bl) with
        | Some l, Some l' =>
          let vs := low_block l' in
          if forallb item_b l && representable_b l && forallb low_b l' && ends_b vs true && fits_b 0 0 0 vs && facts_b l' vs [] st then
            match logs (erun vs [] st) (vrun vs true [] (cx_of st)) with
            | Some (a, b) =>
              Some (forallb aligned_b l,
                    filter (fun i => match nth_error (b_insts p') i with Some d => f_noop (d_flags d) | None => false end) (blk_insts bl), a, b)
            | None => None
            end
          else None
        | _, _ => None
        end
      | _, _ => None
      end
    | None => None
    end
  | None => None
  end.
Lemma demo_spec code start st al marked a b : demo code start st = Some (al, marked, a, b) ->
  exists env prog p0 p p' bl l l' vs,
    load demo_info demo_io (fun v => v) 1000000 code = Some (env, prog) /\ analyze env prog = Some p /\ refresh_cfg p0 = Some p /\
    dead_store_elim false (a_const env) p = Some p' /\ In bl (b_blocks p) /\ bk_start bl = start /\
    items_at (a_const env) p (blk_insts bl) = Some l /\ items_at (a_const env) p' (blk_insts bl) = Some l' /\
    Forall item_ok l /\ representable l /\ Forall2 lowered l' vs /\ Forall (fun v => inst_ok (unmark v)) vs /\
    heads_ok l vs /\ ends_ok (map unmark vs) true /\ fits 0 0 0 vs /\ starts_head vs /\
    in_memory (cx_of st) st /\ facts_hold vs [] st /\
    (al = true <-> Forall aligned l) /\
    marked = filter (fun i => match nth_error (b_insts p') i with Some d => f_noop (d_flags d) | None => false end) (blk_insts bl) /\
    erun vs [] st = Some (EHalt a) /\ vrun vs true [] (cx_of st) = Some (RHalt b) /\ vs = low_block l'.
Proof.
  unfold demo. destruct (load _ _ _ _ _) as [[env prog]|]; [|discriminate]. destruct (analyze env prog) as [p|] eqn:EA; [|discriminate].
  destruct (dead_store_elim _ _ p) as [p'|] eqn:ED; [|discriminate]. destruct (block_at p start) as [bl|] eqn:EB; [|discriminate].
  destruct (items_at _ p _) as [l|] eqn:E1; [|discriminate]. destruct (items_at _ p' _) as [l'|] eqn:E2; [|discriminate].
  destruct (_ && _) eqn:C; [|discriminate]. destruct (logs _ _) as [[x y]|] eqn:EL; [|discriminate]. intros E.
  apply andb_prop in C as [C C6]. apply andb_prop in C as [C C5]. apply andb_prop in C as [C C4]. apply andb_prop in C as [C C3]. apply andb_prop in C as [C1 C2].
  assert (RF : exists p0, refresh_cfg p0 = Some p).
  { unfold analyze in EA. destruct (analyze_local env _) as [q|]; [|discriminate]. unfold analyze_global in EA.
    match type of EA with match ?x with _ => _ end = _ => destruct x as [q1|]; [|discriminate] end. eauto. }
  destruct RF as (p0 & RF). exists env, prog, p0, p, p', bl, l, l', (low_block l').
  unfold logs in EL. destruct (erun _ _ _) as [[x'|]|] eqn:ER; try discriminate. destruct (vrun _ _ _ _) as [[y'|]|] eqn:EV; try discriminate.
  injection EL as -> ->. injection E as <- <- <- <-. unfold block_at in EB. apply find_some in EB as (B1 & B2). apply Nat.eqb_eq in B2.
  repeat (split; [solve [auto]|]).
  split; [apply item_b_ok; exact C1|]. split; [apply representable_b_ok; exact C2|]. destruct (low_block_ok _ C3) as (L1 & L2).
  split; [exact L1|]. split; [exact L2|]. split; [apply low_block_heads|]. split; [apply ends_b_ok; exact C4|]. split; [apply fits_b_ok; exact C5|].
  split. { unfold low_block. destruct (stack_section _) as [? ?]. destruct l' as [|t l']; [|unfold starts_head, is_head; now rewrite low_head].
    inversion L1; subst. discriminate ER. }
  split; [apply cx_of_ok|]. split; [apply facts_low_block; exact C6|]. split; [apply aligned_b_ok|]. auto.
Qed.

(** JUMPDEST; CALLVALUE; DUP1; POP; PUSH0; MSTORE; CALLVALUE; STOP: the DUP1, the PUSH0 (a constant
    operand needs no slot) and the last CALLVALUE are skipped, and the MSTORE sees the value sent. *)
Definition ex_code : list Z := [0x5b; 0x34; 0x80; 0x50; 0x5f; 0x52; 0x34; 0x00].
Lemma ex_run : demo ex_code 0 [] = Some (true, [2; 4; 6]%nat, [0; 1000], [0; 1000]).
Proof. vm_compute. reflexivity. Qed.
Example C18_ex : exists env prog p0 p p' bl l l' vs,
  load demo_info demo_io (fun v => v) 1000000 ex_code = Some (env, prog) /\ analyze env prog = Some p /\ refresh_cfg p0 = Some p /\
  dead_store_elim false (a_const env) p = Some p' /\ In bl (b_blocks p) /\
  items_at (a_const env) p (blk_insts bl) = Some l /\ items_at (a_const env) p' (blk_insts bl) = Some l' /\
  Forall item_ok l /\ Forall aligned l /\ representable l /\ Forall2 lowered l' vs /\ Forall (fun v => inst_ok (unmark v)) vs /\
  heads_ok l vs /\ ends_ok (map unmark vs) true /\ fits 0 0 0 vs /\ starts_head vs /\
  in_memory (cx_of []) [] /\ facts_hold vs [] [] /\ erun vs [] [] = Some (EHalt [0; 1000]).
Proof.
  destruct (demo_spec _ _ _ _ _ _ _ ex_run) as (env & prog & p0 & p & p' & bl & l & l' & vs & H1 & H2 & H3 & H4 & H5 & _ & H6 & H7 & H8 & H9 & H10 & H11 & H12 & H13 & H14 & H15 & H16 & H17 & H18 & _ & H19 & _).
  exists env, prog, p0, p, p', bl, l, l', vs. repeat (split; [first [assumption|apply H18; reflexivity]|]). exact H19.
Qed.

(** C18 is false of the code when a snapshot is shorter than the operand list. PUSH1 100; 64 times
    PUSH1 3; a jump to a block that pops the 64 and computes ADDMOD(7, CALLVALUE, 100): the abstract
    stack keeps 64 entries, so the snapshot of ADDMOD has two entries, unknown and 7. The pass reads
    them as the two deepest operands, takes CALLVALUE's slot for the constant 7 and skips CALLVALUE;
    the compiled ADDMOD computes with a stale slot. *)
Definition cut_code : list Z :=
  [0x60; 100] ++ concat (repeat [0x60; 3] 64) ++ [0x60; 133; 0x56; 0x5b] ++ repeat 0x50 64 ++ [0x34; 0x60; 7; 0x08; 0x5f; 0x52; 0].
Lemma cut_run : demo cut_code 67 (repeat 3 64 ++ [100]) = Some (false, [132; 135]%nat, [0; 7], [0; 10]).
Proof. vm_compute. reflexivity. Qed.
Theorem C18_dead_stores_unobservable_refuted :
  exists env prog p0 p p' bl l l' (vs : list (vinst Wd)) st,
    load demo_info demo_io (fun v => v) 1000000 cut_code = Some (env, prog) /\ analyze env prog = Some p /\ refresh_cfg p0 = Some p /\
    dead_store_elim false (a_const env) p = Some p' /\ In bl (b_blocks p) /\
    items_at (a_const env) p (blk_insts bl) = Some l /\ items_at (a_const env) p' (blk_insts bl) = Some l' /\
    Forall item_ok l /\ representable l /\ Forall2 lowered l' vs /\ Forall (fun v => inst_ok (unmark v)) vs /\
    heads_ok l vs /\ ends_ok (map unmark vs) true /\ fits 0 0 0 vs /\ starts_head vs /\
    in_memory (cx_of st) st /\ facts_hold vs [] st /\
    erun vs [] st = Some (EHalt [0; 7]) /\ vrun vs true [] (cx_of st) = Some (RHalt [0; 10]).
Proof.
  destruct (demo_spec _ _ _ _ _ _ _ cut_run) as (env & prog & p0 & p & p' & bl & l & l' & vs & H1 & H2 & H3 & H4 & H5 & _ & H6 & H7 & H8 & H9 & H10 & H11 & H12 & H13 & H14 & H15 & H16 & H17 & H18 & _ & H19 & H20).
  exists env, prog, p0, p, p', bl, l, l', vs, (repeat 3 64 ++ [100]). repeat (split; [assumption|]). exact (proj1 H20).
Qed.
Print Assumptions C18_dead_stores_unobservable_refuted.
