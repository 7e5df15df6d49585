(** Finding F4: a contract of [n] LOG4 and one DUP1, for every [n]. *)
From Verif Require Import OpcodeSpec SectionsModel SectionsProof SummarySpec DseProof StructProof CfgProof ProgramProof FlowSpec BlockProof DemoTables SummaryProof.
From Coq Require Import ZifyBool.
Import ListNotations.
Open Scope Z_scope.

Definition logs_code (n : nat) : list Z := repeat 0xa4 n ++ [0x80].
Definition log4 : idata := mkD 0xa4 no_flags 3 (6, 0) 0 false 0 0 (0, 0).
Definition dup1 : idata := mkD 0x80 no_flags 3 (1, 2) 0 false 0 0 (0, 0).
Definition logs_prog (n : nat) : list idata := repeat log4 n ++ [dup1; stop_padding].

Lemma skipn_repeat {A} (x : A) k : forall n l, (k <= n)%nat -> skipn k (repeat x n ++ l) = repeat x (n - k) ++ l.
Proof. induction k as [|k IH]; intros [|n] l H; cbn; auto; try lia. apply IH. lia. Qed.
Lemma repeat_S_end {A} (x : A) n : repeat x (S n) = repeat x n ++ [x].
Proof. induction n; cbn; [reflexivity|]. cbn in IHn. now rewrite <- IHn. Qed.
Lemma nth_error_firstn_local {A} n : forall k (l : list A), (k < n)%nat -> nth_error (firstn n l) k = nth_error l k.
Proof. induction n as [|n IH]; intros k l H; [lia|]. destruct l, k; cbn; auto. apply IH. lia. Qed.
Definition st_at (k : nat) : pstate := mkP k k (map (fun j => mkInst j 0xa4 true (6, 0) 0) (seq 0 k)) [] [].
Lemma logs_step n k : (k < n)%nat -> parse_step (active_of demo_info) demo_io (logs_code n) (st_at k) = Some (st_at (S k)).
Proof.
  intros H. unfold parse_step, iter_next_pc, st_at, logs_code. cbn [p_pos p_pc p_insts p_dests p_int fst snd].
  rewrite skipn_repeat by lia. replace (n - k)%nat with (S (n - S k)) by lia.
  change (iter_next (active_of demo_info) (repeat 164 (S (n - S k)) ++ [128])) with (Some (mkOpcode 0xa4 None, repeat 0xa4 (n - S k) ++ [0x80])).
  cbn match. cbn [opc immediate imm_length].
  change (has_imm_data 164) with false. change (active_of demo_info 164) with true. change (is_8024 164 && true && _) with false.
  change ((164 =? OP_JUMPDEST) || (164 =? OP_PC)) with false. change (164 =? OP_JUMPDEST) with false. cbn match.
  change (compute_stack_io demo_io 164 None) with (6, 0). rewrite !app_length, !repeat_length. cbn [length].
  f_equal. rewrite seq_S, map_app. cbn [map Nat.add]. f_equal; lia.
Qed.
Definition st_end (n : nat) : pstate := mkP (S n) (S n) (map (fun j => mkInst j 0xa4 true (6, 0) 0) (seq 0 n) ++ [mkInst n 0x80 true (1, 2) 0]) [] [].
Lemma logs_last n : parse_step (active_of demo_info) demo_io (logs_code n) (st_at n) = Some (st_end n).
Proof.
  unfold parse_step, iter_next_pc, st_at, logs_code. cbn [p_pos p_pc p_insts p_dests p_int fst snd].
  rewrite skipn_repeat by lia. rewrite Nat.sub_diag. cbn [repeat app].
  change (iter_next (active_of demo_info) [128]) with (Some (mkOpcode 0x80 None, @nil Z)).
  cbn match. cbn [opc immediate imm_length].
  change (has_imm_data 128) with false. change (active_of demo_info 128) with true. change (is_8024 128 && true && _) with false.
  change ((128 =? OP_JUMPDEST) || (128 =? OP_PC)) with false. change (128 =? OP_JUMPDEST) with false. cbn match.
  change (compute_stack_io demo_io 128 None) with (1, 2). rewrite app_length, repeat_length. cbn [length].
  unfold st_end. do 2 f_equal; lia.
Qed.
Lemma logs_stop n : parse_step (active_of demo_info) demo_io (logs_code n) (st_end n) = None.
Proof.
  unfold parse_step, iter_next_pc, st_end, logs_code. cbn [p_pos p_pc fst snd].
  rewrite skipn_all2 by (rewrite app_length, repeat_length; cbn; lia). reflexivity.
Qed.
Lemma logs_loop n : forall m k, (k + m = n)%nat -> parse_loop (S m) (active_of demo_info) demo_io (logs_code n) (st_at k) = Some (st_end n).
Proof.
  induction m as [|m IH]; intros k E.
  - assert (k = n) by lia. subst k. cbn [parse_loop]. rewrite logs_last, logs_stop. reflexivity.
  - cbn [parse_loop]. rewrite logs_step by lia. apply IH. lia.
Qed.
Lemma logs_parse n : parse (active_of demo_info) demo_io (logs_code n) = Some (st_end n).
Proof. unfold parse. replace (length (logs_code n)) with (S n) by (unfold logs_code; rewrite app_length, repeat_length; cbn; lia). apply (logs_loop n n 0). lia. Qed.
Lemma map_const {A B} (x : B) (l : list A) : map (fun _ => x) l = repeat x (length l).
Proof. induction l; cbn; congruence. Qed.
Lemma logs_insts n : pad_insts (map (idata_of demo_info) (p_insts (st_end n))) = logs_prog n.
Proof.
  unfold st_end. cbn [p_insts]. rewrite map_app, map_map.
  rewrite (map_ext _ (fun _ => log4)) by reflexivity. rewrite map_const, seq_length. unfold pad_insts. rewrite map_app. cbn [map].
  rewrite last_last. change (can_fall_through (idata_of demo_info (mkInst n 128 true (1, 2) 0))) with true. cbn match.
  rewrite <- app_assoc. reflexivity.
Qed.

(** ** After the analysis: one block with everything in it. *)
Section After.
  Variables (n : nat) (p : bc).
  Hypothesis K : kept_list (logs_prog n) (b_insts p).
  Hypothesis DS : dead_struct (b_insts p).
  Hypothesis BL : b_blocks p = blocks_of p.

  Lemma logs_nth i : nth_error (logs_prog n) i =
    if (i <? n)%nat then Some log4 else if (i =? n)%nat then Some dup1 else if (i =? S n)%nat then Some stop_padding else None.
  Proof.
    unfold logs_prog. destruct (Nat.ltb_spec i n).
    - rewrite nth_error_app1 by (rewrite repeat_length; lia). apply nth_error_repeat. lia.
    - rewrite nth_error_app2 by (rewrite repeat_length; lia). rewrite repeat_length. destruct (Nat.eqb_spec i n); [subst; rewrite Nat.sub_diag; reflexivity|].
      destruct (Nat.eqb_spec i (S n)); [subst; replace (S n - n)%nat with 1%nat by lia; reflexivity|].
      apply nth_error_None. cbn. lia.
  Qed.
  Lemma logs_length : length (logs_prog n) = S (S n).
  Proof. unfold logs_prog. rewrite app_length, repeat_length. cbn. lia. Qed.
  Lemma logs_kept i d : nth_error (b_insts p) i = Some d -> exists d0, nth_error (logs_prog n) i = Some d0 /\ keeps d0 d /\ (d0 = log4 /\ (i < n)%nat \/ d0 = dup1 /\ i = n \/ d0 = stop_padding /\ i = S n).
  Proof.
    intros H. destruct (proj2 K i d H) as (d0 & H0 & KK). exists d0. split; [exact H0|]. split; [exact KK|]. rewrite logs_nth in H0.
    destruct (Nat.ltb_spec i n); [left; split; [congruence|lia]|]. destruct (Nat.eqb_spec i n); [right; left; split; [congruence|lia]|].
    destruct (Nat.eqb_spec i (S n)); [|discriminate]. right; right; split; [congruence|lia].
  Qed.
  Lemma logs_falls i d : nth_error (b_insts p) i = Some d -> (i <= n)%nat -> can_fall_through d = true /\ is_branching d = false.
  Proof.
    intros H L. destruct (logs_kept i d H) as (d0 & _ & (E1 & _ & _ & _ & _ & _ & E3 & E4 & _) & [[-> _]|[[-> _]|[_ ?]]]); [| |lia];
      unfold can_fall_through, is_branching, is_jump, is_diverging, has_const_jumpi_condition; rewrite E1, E3, E4; split; reflexivity.
  Qed.
  Lemma logs_live i d : nth_error (b_insts p) i = Some d -> is_dead d = false.
  Proof.
    revert d. induction i as [|i IH]; intros d H; [exact (proj1 DS d H)|]. destruct (is_dead d) eqn:D; [|reflexivity]. exfalso.
    assert (L : (S i < length (b_insts p))%nat) by (apply nth_error_Some; congruence). rewrite (proj1 K), logs_length in L.
    destruct (nth_error (b_insts p) i) as [d0|] eqn:H0; [|apply nth_error_None in H0; rewrite (proj1 K), logs_length in H0; lia].
    destruct (proj2 DS i d0 d H0 H D) as [X|X]; [rewrite (IH d0 eq_refl) in X; discriminate|].
    rewrite (proj1 (logs_falls i d0 H0 ltac:(lia))) in X. discriminate.
  Qed.
  Lemma logs_leader dyn i : (0 < i <= S n)%nat -> is_leader dyn (b_insts p) i = false.
  Proof.
    intros R. unfold is_leader. destruct i as [|i]; [lia|]. cbn [leader_before].
    destruct (nth_error (b_insts p) i) as [d|] eqn:H; [|apply nth_error_None in H; rewrite (proj1 K), logs_length in H; lia].
    destruct (logs_falls i d H ltac:(lia)) as [F B]. rewrite B. unfold is_branching in B. apply orb_false_iff in B as [_ ->]. rewrite andb_false_r. cbn [orb].
    destruct (nth_error (b_insts p) (S i)) as [d1|] eqn:H1; [|reflexivity].
    destruct (logs_kept (S i) d1 H1) as (d0 & _ & (E1 & _) & [[-> _]|[[-> _]|[-> ?]]]); unfold is_reachable_jumpdest, is_jumpdest; rewrite E1; reflexivity.
  Qed.
  Lemma logs_build dyn : forall l i s, skipn i (b_insts p) = l -> (0 < i <= S (S n))%nat ->
    build dyn (b_insts p) i l (Some (s, i)) false = [(s, S (S n))].
  Proof.
    induction l as [|d l IH]; intros i s E R; cbn [build].
    - assert (X : length (skipn i (b_insts p)) = 0%nat) by (rewrite E; reflexivity). rewrite skipn_length, (proj1 K), logs_length in X. do 2 f_equal. lia.
    - assert (Hn : nth_error (b_insts p) i = Some d).
      { rewrite <- (Nat.add_0_r i), <- nth_skipn, E. reflexivity. }
      assert (L : (i < length (b_insts p))%nat) by (apply nth_error_Some; congruence). rewrite (proj1 K), logs_length in L.
      rewrite (logs_live i d Hn), (logs_leader dyn i) by lia. cbn [orb]. apply IH; [|lia].
      rewrite (SectionsProof.skipn_cons _ _ _ Hn) in E. congruence.
  Qed.
  Lemma logs_ranges dyn : ranges dyn (b_insts p) = [(0, S (S n))%nat].
  Proof.
    assert (X : exists d l, b_insts p = d :: l).
    { pose proof (proj1 K) as X. rewrite logs_length in X. destruct (b_insts p) as [|d l]; [discriminate|eauto]. }
    destruct X as (d & l & E). unfold ranges. rewrite E at 2. cbn [build].
    assert (D : is_dead d = false) by (apply (logs_live 0); rewrite E; reflexivity). rewrite D.
    apply logs_build; [rewrite E; reflexivity|lia].
  Qed.

  (** The items of the block and their stack effects. *)
  Lemma logs_items imm : exists l, items_at imm p (seq 0 (S (S n))) = Some l /\ length l = S (S n) /\
    forall k t, nth_error l k = Some t -> exists d0, nth_error (logs_prog n) k = Some d0 /\ keeps d0 (it_d t).
  Proof.
    destruct (items_total imm p 0 (S (S n))) as (l & E); [rewrite (proj1 K), logs_length; lia|]. exists l. split; [exact E|].
    apply items_spec in E as (L & H). split; [exact L|]. intros k t Hk.
    assert ((k < S (S n))%nat) by (rewrite <- L; apply nth_error_Some; congruence). rewrite H in Hk by assumption. cbn [Nat.add] in Hk.
    unfold item_at in Hk. destruct (nth_error (b_insts p) k) as [d|] eqn:Hd; [|discriminate]. injection Hk as <-. cbn [it_d].
    exact (proj2 K k d Hd).
  Qed.

  Definition like (d0 : idata) (t : ditem) : Prop := keeps d0 (it_d t).
  Lemma like_io d0 t : like d0 t -> d_io (it_d t) = d_io d0.
  Proof. intros (_ & H & _). exact H. Qed.
  Lemma logs_split imm l : items_at imm p (seq 0 (S (S n))) = Some l ->
    exists l1 t1 t2, l = l1 ++ [t1; t2] /\ length l1 = n /\ Forall (like log4) l1 /\ like dup1 t1 /\ like stop_padding t2.
  Proof.
    intros E. destruct (logs_items imm) as (l' & E' & L & H). rewrite E in E'. injection E' as <-.
    assert (Hn : forall k t, nth_error l k = Some t -> (k < n)%nat /\ like log4 t \/ k = n /\ like dup1 t \/ k = S n /\ like stop_padding t).
    { intros k t Hk. destruct (H k t Hk) as (d0 & H0 & KK). rewrite logs_nth in H0. destruct (Nat.ltb_spec k n); [left; split; [lia|]|right].
      - injection H0 as <-. exact KK.
      - destruct (Nat.eqb_spec k n); [left; split; [lia|]; injection H0 as <-; exact KK|right].
        destruct (Nat.eqb_spec k (S n)); [split; [lia|]; injection H0 as <-; exact KK|discriminate]. }
    destruct (nth_error l n) as [t1|] eqn:H1; [|apply nth_error_None in H1; lia].
    destruct (nth_error l (S n)) as [t2|] eqn:H2; [|apply nth_error_None in H2; lia].
    exists (firstn n l), t1, t2. split; [|split; [|split; [|split]]].
    - rewrite <- (firstn_skipn n l) at 1. f_equal. rewrite (SectionsProof.skipn_cons _ _ _ H1). f_equal. rewrite (SectionsProof.skipn_cons _ _ _ H2). f_equal.
      apply skipn_all2. lia.
    - rewrite firstn_length. lia.
    - apply Forall_forall. intros t Ht. apply In_nth_error in Ht as (k & Hk). assert (R : (k < n)%nat).
      { assert (k < length (firstn n l))%nat by (apply nth_error_Some; congruence). rewrite firstn_length in H0. lia. }
      rewrite nth_error_firstn_local in Hk by exact R. destruct (Hn k t Hk) as [[_ X]|[[? _]|[? _]]]; [exact X|lia|lia].
    - destruct (Hn _ _ H1) as [[? _]|[[_ X]|[? _]]]; [lia|exact X|lia].
    - destruct (Hn _ _ H2) as [[? _]|[[? _]|[_ X]]]; [lia|lia|exact X].
  Qed.

  Lemma stop_step t h live : like stop_padding t -> dse_step t h live = Some (live, it_d t).
  Proof.
    intros (E1 & E2 & _ & _ & _ & _ & E3 & E4 & E5 & _). unfold dse_step, it_inp, it_outp. rewrite E1, E2, E3, E4, E5. cbn [d_flags stop_padding no_flags f_noop f_disabled f_unknown orb d_op d_io fst snd].
    change (can_skip OP_STOP) with false. cbn [andb]. 
    change (transfer_liveness live OP_STOP h (Z.to_nat 0) (Z.to_nat 0) (decode_imm OP_STOP (it_imm t)) (it_in t) (it_out t)) with (Some live). cbn match.
    assert (S : may_suspend (it_d t) = false) by (unfold may_suspend; rewrite E1; reflexivity). rewrite S. reflexivity.
  Qed.
  Lemma dup_step t h live : like dup1 t -> h < 0 -> dse_step t h live = None.
  Proof.
    intros (E1 & E2 & _ & _ & _ & _ & E3 & E4 & E5 & _) Hh. unfold dse_step, it_inp, it_outp.
    assert (B : is_branching (it_d t) = false /\ is_diverging (it_d t) = false).
    { unfold is_branching, is_jump, is_diverging. rewrite E1, E3, E4. split; reflexivity. }
    destruct B as [-> ->]. rewrite E1, E2, E3, E4, E5. cbn [d_flags dup1 no_flags f_noop f_disabled f_unknown orb d_op d_io fst snd].
    change (can_skip 128) with true. cbn [andb negb].
    assert (A : all_outputs_dead live 128 h (Z.to_nat 1) (Z.to_nat 2) (decode_imm 128 (it_imm t)) = option_map negb (lget live h)) by reflexivity. rewrite A.
    unfold lget. destruct (Z.ltb_spec h 0); [reflexivity|lia].
  Qed.
  Lemma walk_none l1 : forall h tl e, Forall (like log4) l1 -> dse_walk tl (h - 6 * Z.of_nat (length l1)) e = None -> dse_walk (l1 ++ tl) h e = None.
  Proof.
    induction l1 as [|t l1 IH]; intros h tl e F E; cbn [app length] in *; [rewrite Z.sub_0_r in E; exact E|].
    inversion F as [|? ? F1 F2]; subst. cbn [dse_walk]. rewrite (like_io _ _ F1). cbn [log4 d_io fst snd].
    rewrite IH; [reflexivity|exact F2|]. rewrite <- E. f_equal. lia.
  Qed.
  Lemma summary_logs l1 : forall s, Forall (like log4) l1 -> 0 <= s_inputs s -> s_diff s <= 0 -> 0 <= s_growth s ->
    let s' := fold_left stack_process (map (fun t => d_io (it_d t)) l1) s in
    s_inputs s' = (if (length l1 =? 0)%nat then s_inputs s else Z.max (s_inputs s) (6 * Z.of_nat (length l1) - s_diff s)) /\
    s_diff s' = s_diff s - 6 * Z.of_nat (length l1) /\ s_growth s' = s_growth s.
  Proof.
    induction l1 as [|t l1 IH]; intros s F H1 H2 H3; cbn [map fold_left length]; [cbn; lia|].
    inversion F as [|? ? F1 F2]; subst. rewrite (like_io _ _ F1). cbn [log4 d_io].
    destruct (IH (stack_process s (6, 0)) F2) as (A & B & C); try (unfold stack_process; cbn; lia).
    cbn zeta. rewrite A, B, C. unfold stack_process. cbn [s_inputs s_diff s_growth fst snd]. clear A B C IH.
    change (S (length l1) =? 0)%nat with false. cbn match. destruct (Nat.eqb_spec (length l1) 0) as [->|]; lia.
  Qed.
  Lemma logs_dse inspect imm : 10923 <= Z.of_nat n -> dead_store_elim inspect imm p = None.
  Proof.
    intros N. unfold dead_store_elim. rewrite BL. unfold blocks_of. rewrite logs_ranges. cbn [map dse_blocks fst snd]. unfold dse_one, blk_insts. cbn [bk_start bk_end].
    rewrite Nat.sub_0_r. destruct (logs_items imm) as (l & E & _). rewrite E.
    destruct (logs_split imm l E) as (l1 & t1 & t2 & -> & L1 & F & T1 & T2).
    unfold dse_block. set (s := block_summary _).
    assert (SUM : s_inputs s = 6 * Z.of_nat n + 1 /\ s_growth s = 0).
    { unfold s, block_summary. rewrite map_app, fold_left_app. destruct (summary_logs l1 s_init F) as (A & B & C); try (cbn; lia).
      cbn [map fold_left]. rewrite (like_io _ _ T1), (like_io _ _ T2). set (q := fold_left _ _ _) in *. rewrite L1 in *.
      destruct (Nat.eqb_spec n 0); [lia|]. cbn [s_init s_inputs s_diff s_growth] in *. unfold stack_process. cbn [s_inputs s_diff s_growth d_io dup1 stop_padding fst snd]. lia. }
    destruct SUM as [S1 S2]. unfold stack_section. rewrite S1, S2. unfold U16_MAX, I16_MAX. change (2 ^ 16 - 1) with 65535. change (2 ^ 15 - 1) with 32767.
    replace ((0 <=? 6 * Z.of_nat n + 1) && (6 * Z.of_nat n + 1 <=? 65535)) with false by lia. change (0 <=? 32767) with true. cbn match.
    set (live := resize _ _ _).
    destruct live as [|b live'] eqn:EL.
    { exfalso. assert (0 < length live)%nat; [|rewrite EL in H; cbn in H; lia]. unfold live, resize. rewrite app_length, firstn_length, !repeat_length. lia. }
    rewrite walk_none; [reflexivity|exact F|]. rewrite L1. cbn [dse_walk]. rewrite (stop_step _ _ _ T2).
    rewrite (dup_step _ _ _ T1) by lia. reflexivity.
  Qed.

  (** The whole program is one section. *)
  Lemma logs_sect dyn istanbul : sect dyn istanbul true (b_insts p) = repeat (6, 0) n ++ [(1, 2); (0, 0)].
  Proof.
    assert (G : forall m k first, (k + m = n)%nat -> sect dyn istanbul first (skipn k (b_insts p)) = repeat (6, 0) m ++ [(1, 2); (0, 0)]).
    { assert (STEP : forall k d first, nth_error (b_insts p) k = Some d -> sect dyn istanbul first (skipn k (b_insts p)) =
                d_io d :: (if leaves_section istanbul d then [] else sect dyn istanbul false (skipn (S k) (b_insts p)))).
      { intros k d first H. rewrite (SectionsProof.skipn_cons _ _ _ H). cbn [sect]. pose proof (logs_live k d H) as D. unfold is_dead in D. rewrite D.
        assert (X : lands dyn d = false).
        { destruct (logs_kept k d H) as (d0 & _ & (E1 & _) & [[-> _]|[[-> _]|[-> _]]]); unfold lands; rewrite E1; reflexivity. }
        rewrite X, andb_false_r. reflexivity. }
      assert (HAVE : forall k, (k < S (S n))%nat -> exists d, nth_error (b_insts p) k = Some d).
      { intros k H. destruct (nth_error (b_insts p) k) as [d|] eqn:E; [eauto|]. apply nth_error_None in E. rewrite (proj1 K), logs_length in E. lia. }
      induction m as [|m IH]; intros k first E.
      - assert (k = n) by lia. subst k. destruct (HAVE n) as (d & Hd); [lia|]. rewrite (STEP n d first Hd).
        destruct (logs_kept n d Hd) as (d0 & _ & (E1 & E2 & _ & _ & _ & _ & E3 & E4 & _) & [[_ ?]|[[-> _]|[_ ?]]]); [lia| |lia].
        rewrite E2. assert (LS : leaves_section istanbul d = false) by (unfold leaves_section; rewrite E1, E3, E4; reflexivity). rewrite LS.
        destruct (HAVE (S n)) as (d1 & Hd1); [lia|]. rewrite (STEP (S n) d1 false Hd1).
        destruct (logs_kept (S n) d1 Hd1) as (d2 & _ & (F1 & F2 & _) & [[_ ?]|[[_ ?]|[-> _]]]); [lia|lia|]. rewrite F2.
        assert (LS1 : leaves_section istanbul d1 = true) by (unfold leaves_section; rewrite F1; reflexivity). rewrite LS1. reflexivity.
      - destruct (HAVE k) as (d & Hd); [lia|]. rewrite (STEP k d first Hd).
        destruct (logs_kept k d Hd) as (d0 & _ & (E1 & E2 & _ & _ & _ & _ & E3 & E4 & _) & [[-> _]|[[_ ?]|[_ ?]]]); [|lia|lia].
        rewrite E2. assert (LS : leaves_section istanbul d = false) by (unfold leaves_section; rewrite E1, E3, E4; reflexivity). rewrite LS.
        rewrite (IH (S k) false) by lia. reflexivity. }
    exact (G n 0%nat true eq_refl).
  Qed.
End After.
Lemma logs_deepest_at n h : h <= 0 -> deepest (repeat (6, 0) n ++ [(1, 2); (0, 0)]) h = 6 * Z.of_nat n + 1 - h.
Proof. revert h. induction n as [|n IH]; intros h H; cbn [repeat app deepest]; [lia|]. rewrite IH by lia. lia. Qed.
Lemma logs_deepest n : deepest (repeat (6, 0) n ++ [(1, 2); (0, 0)]) 0 = 6 * Z.of_nat n + 1.
Proof. rewrite logs_deepest_at by lia. lia. Qed.
