(** Lemmas for the dynamic jump table: while unresolved jumps remain, no JUMPDEST is removed. *)
From Verif Require Import JumpModel DedupModel FlowSpec CfgProof BlockProof ProgramProof AnalysisProof DedupProof CommitProof DedupRedir.
From Coq Require Import ZifyBool Permutation.
Open Scope Z_scope.

(** [l'] comes later than [l]: jumps only become resolved or dead, and if some jump is still unresolved
    in [l'], no JUMPDEST died in between. *)
Definition sane (d : idata) : Prop := f_static (d_flags d) = false -> f_invalid (d_flags d) = false /\ f_multi (d_flags d) = false.
Definition later (l l' : list idata) : Prop := length l' = length l /\
  forall k d', nth_error l' k = Some d' -> exists d, nth_error l k = Some d /\ (d_op d' = d_op d /\ (sane d -> sane d')) /\
    (unresolved d' = true -> unresolved d = true) /\
    (existsb unresolved l' = true -> is_jumpdest d = true -> is_dead d = false -> is_dead d' = false).
Lemma later_refl l : later l l.
Proof. split; [reflexivity|]. intros k d H. exists d. auto. Qed.
Lemma later_unres l l' : later l l' -> existsb unresolved l' = true -> existsb unresolved l = true.
Proof.
  intros [_ H] E. apply existsb_exists in E as (d' & Hin & U). apply In_nth_error in Hin as [k Hk].
  destruct (H k d' Hk) as (d & Hd & _ & X & _). apply existsb_exists. exists d. split; [eapply nth_error_In; eauto|auto].
Qed.
Lemma later_trans a b c : later a b -> later b c -> later a c.
Proof.
  intros X Y. pose proof (later_unres _ _ Y) as UY. destruct X as [L1 H1], Y as [L2 H2]. split; [congruence|].
  intros k d' H. destruct (H2 k d' H) as (d & Hd & [A1 A0] & A2 & A3). destruct (H1 k d Hd) as (e & He & [B1 B0] & B2 & B3).
  exists e. split; [exact He|]. split; [split; [congruence|auto]|]. split; [auto|]. intros U J D.
  apply A3; [exact U| |apply B3; auto]. unfold is_jumpdest in *. congruence.
Qed.
(** Every step that changes neither opcodes nor liveness and leaves resolved jumps resolved. *)
Lemma later_same l l' : length l' = length l ->
  (forall k d', nth_error l' k = Some d' -> exists d, nth_error l k = Some d /\ (d_op d' = d_op d /\ (sane d -> sane d')) /\ is_dead d' = is_dead d /\
     (f_static (d_flags d) = true -> f_static (d_flags d') = true)) -> later l l'.
Proof.
  intros L H. split; [exact L|]. intros k d' Hk. destruct (H k d' Hk) as (d & Hd & [O SN] & D & S). exists d.
  split; [exact Hd|]. split; [split; [exact O|exact SN]|]. split; [|congruence]. unfold unresolved, is_jump. rewrite O, D.
  destruct (f_static (d_flags d)) eqn:E; [rewrite S by reflexivity; rewrite andb_false_r; discriminate|].
  destruct (f_static (d_flags d')); [rewrite andb_false_r; discriminate|auto].
Qed.
Lemma later_upd k f l : (forall d, nth_error l k = Some d -> (d_op (f d) = d_op d /\ (sane d -> sane (f d))) /\ is_dead (f d) = is_dead d /\ (f_static (d_flags d) = true -> f_static (d_flags (f d)) = true)) ->
  later l (upd_nth k f l).
Proof.
  intros F. apply later_same; [apply upd_nth_length|]. intros i d' H. rewrite nth_upd_nth in H. destruct (Nat.eqb_spec i k) as [-> |N].
  - destruct (nth_error l k) as [d|] eqn:E; [|discriminate]. cbn in H. injection H as <-. exists d. split; [reflexivity|]. apply F. reflexivity.
  - exists d'. auto.
Qed.
Lemma later_upto l l' : length l' = length l -> (forall k d', nth_error l' k = Some d' -> exists d, nth_error l k = Some d /\ upto_reach d d') -> later l l'.
Proof.
  intros L H. apply later_same; [exact L|]. intros k d' Hk. destruct (H k d' Hk) as (d & Hd & U). exists d. split; [exact Hd|].
  destruct U as [-> | [b ->]]; auto.
Qed.

(** ** The steps of the analysis. *)
Lemma mark_once_later dyn l l' b : (existsb unresolved l = true -> dyn = true) -> mark_once dyn None 0 l = (l', b) -> later l l'.
Proof.
  intros DY E. destruct (mark_once_spec _ _ _ _ _ _ E) as (L & P & J & _).
  assert (U : forall k d', nth_error l' k = Some d' -> exists d, nth_error l k = Some d /\ (d_op d' = d_op d /\ (sane d -> sane d')) /\ (unresolved d' = true -> unresolved d = true)).
  { intros k d' H. destruct (P k d' H) as (d & Hd & [-> | ->]); exists d; (split; [exact Hd|split; [auto|]]); [auto|].
    unfold unresolved. cbn. rewrite andb_false_r. discriminate. }
  split; [exact L|]. intros k d' H. destruct (U k d' H) as (d & Hd & O & X). exists d. split; [exact Hd|]. split; [exact O|]. split; [exact X|].
  intros EX JD DD. assert (DT : dyn = true).
  { apply DY. apply existsb_exists in EX as (e' & Hin & UE). apply In_nth_error in Hin as [m Hm]. destruct (U m e' Hm) as (e & He & _ & Y).
    apply existsb_exists. exists e. split; [eapply nth_error_In; eauto|auto]. }
  rewrite (J k d Hd) in H; [congruence|]. unfold is_reachable_jumpdest. rewrite JD, DT. reflexivity.
Qed.
Lemma upto_unres l : forall l', length l' = length l -> (forall k d', nth_error l' k = Some d' -> exists d, nth_error l k = Some d /\ upto_reach d d') ->
  existsb unresolved l = existsb unresolved l'.
Proof.
  induction l as [|x l IHl]; intros [|y l'] L P; try discriminate; [reflexivity|]. cbn.
  destruct (P 0%nat y eq_refl) as (d & Hd & U). injection Hd as <-. rewrite (unresolved_upto _ _ U). f_equal. apply IHl; [cbn in L; congruence|intros k; apply (P (S k))].
Qed.
Lemma mark_dead_code_later fuel : forall p p', b_dyn p = existsb unresolved (b_insts p) -> mark_dead_code fuel p = Some p' ->
  later (b_insts p) (b_insts p') /\ b_dyn p' = existsb unresolved (b_insts p').
Proof.
  assert (KEEP : forall dyn l mode i l', mark_once dyn mode i l = (l', false) -> existsb unresolved l = true -> existsb unresolved l' = true).
  { intros dyn. induction l as [|d l IH]; intros mode i l' E; cbn [mark_once] in E; [injection E as <-; auto|].
    destruct mode as [t|].
    - destruct (opt_eqb t i || is_reachable_jumpdest dyn d).
      + destruct (mark_once dyn None (S i) l) as [r b] eqn:Er. injection E as <- ->. cbn. rewrite !orb_true_iff. intros [H|H]; eauto.
      + destruct (mark_once dyn (Some t) (S i) l) as [r b] eqn:Er. injection E as <- E. apply orb_false_iff in E as [E ->]. cbn. rewrite !orb_true_iff.
        intros [H|H]; [|right; eauto]. exfalso. unfold unresolved in H. destruct (is_jump d), (is_dead d); cbn in *; try discriminate. rewrite andb_false_r in H. discriminate.
    - destruct (mark_once dyn _ (S i) l) as [r b] eqn:Er. injection E as <- ->. cbn. rewrite !orb_true_iff. intros [H|H]; eauto. }
  assert (SAME : forall p l, b_dyn p = existsb unresolved (b_insts p) -> mark_once (b_dyn p) None 0 (b_insts p) = (l, false) -> later (b_insts p) l -> b_dyn p = existsb unresolved l).
  { intros p l DY Em S1. pose proof (later_unres _ _ S1) as X. pose proof (KEEP _ _ _ _ _ Em) as Y. rewrite DY.
    destruct (existsb unresolved (b_insts p)), (existsb unresolved l); try reflexivity; [symmetry; apply Y; reflexivity|apply X; reflexivity]. }
  induction fuel as [|f IH]; intros p p' DY E; cbn [mark_dead_code] in E;
    destruct (mark_once (b_dyn p) None 0 (b_insts p)) as [l b] eqn:Em;
    assert (S1 : later (b_insts p) l) by (eapply mark_once_later; [|exact Em]; congruence); destruct b; try discriminate.
  - injection E as <-. split; [exact S1|]. cbn. eapply SAME; eauto.
  - destruct (recompute_reachable _) as [p2|] eqn:Er; [|discriminate].
    destruct (recompute_reachable_shape _ _ Er) as (L & P & _ & _ & D2 & _). cbn in *.
    pose proof (later_upto _ _ L P) as S2.
    destruct (IH p2 p') as [A B]; [rewrite D2; apply upto_unres; assumption|exact E|].
    split; [|exact B]. eapply later_trans; [exact S1|]. eapply later_trans; [exact S2|exact A].
  - injection E as <-. split; [exact S1|]. cbn. eapply SAME; eauto.
Qed.
Lemma refresh_later p p' : refresh_cfg p = Some p' -> later (b_insts p) (b_insts p') /\ b_dyn p' = existsb unresolved (b_insts p') /\ rebuilt p'.
Proof.
  unfold refresh_cfg. destruct (recompute_reachable (recompute_dyn p)) as [p1|] eqn:E1; [|discriminate].
  destruct (recompute_reachable_shape _ _ E1) as (L & P & _ & _ & D1 & _). cbn in *. pose proof (later_upto _ _ L P) as S1.
  destruct (mark_dead_code _ p1) as [p2|] eqn:E2; [|discriminate]. intros E.
  assert (D2 : b_dyn p1 = existsb unresolved (b_insts p1)) by (rewrite D1; apply upto_unres; assumption).
  destruct (mark_dead_code_later _ _ _ D2 E2) as [A B].
  unfold compress_redirects in E. destruct (compress _ _); [|discriminate]. injection E as <-. cbn. split; [eapply later_trans; eassumption|]. split; [exact B|reflexivity].
Qed.
Lemma commit_one_static bot i r d m d' m' : commit_one bot i r d m = (d', m') ->
  (d_op d' = d_op d /\ (sane d -> sane d')) /\ is_dead d' = is_dead d /\ (f_static (d_flags d) = true -> f_static (d_flags d') = true).
Proof.
  unfold commit_one. destruct (f_static (d_flags d) && negb (cond_known (j_cond r))); [intros E; injection E as <- <-; auto|].
  destruct (j_target r); repeat match goal with |- context [match ?l with _ => _ end] => destruct l end; intros E; injection E as <- <-; unfold sane; cbn; auto;
    repeat split; auto; intros; congruence.
Qed.
Lemma commit_later rs p p' : commit_resolved rs p = Some p' -> later (b_insts p) (b_insts p').
Proof.
  unfold commit_resolved. intros E. destruct (recompute_reachable_shape _ _ E) as (L & P & _).
  eapply later_trans; [|apply later_upto; eassumption]. clear E L P.
  generalize (existsb (fun ir => is_top (snd ir)) rs). intros bot. revert p. induction rs as [|[i r] rs IH]; intros p; cbn [fold_left]; [apply later_refl|].
  eapply later_trans; [|apply IH]. unfold commit_step. destruct (nth_error (b_insts p) i) as [d|] eqn:Hi; [|apply later_refl].
  destruct (commit_one bot i r d (b_multi p i)) as [d' m'] eqn:Ec. cbn. apply later_upd. intros e He. assert (e = d) by congruence. subst e.
  eapply commit_one_static; eauto.
Qed.
Lemma local_later env p p' : analyze_local env p = Some p' -> later (b_insts p) (b_insts p').
Proof.
  unfold analyze_local. destruct (refresh_cfg p) as [p1|] eqn:E1; [|discriminate]. destruct (block_analysis_local env p1) as [p2|] eqn:E2; [|discriminate].
  intros E. unfold block_analysis_local in E2. destruct (fold_left (local_block env p1) (b_blocks p1) ([], (b_snaps p1, b_used p1))) as [rs [sn used]].
  destruct (commit_resolved rs (with_snaps p1 sn used)) as [p3|] eqn:E3; [|discriminate]. cbn in E2. injection E2 as <-.
  eapply later_trans; [apply (refresh_later _ _ E1)|]. eapply later_trans; [apply (commit_later _ _ _ E3)|]. exact (proj1 (refresh_later _ _ E)).
Qed.
Lemma global_later env p p' : analyze_global env p = Some p' -> later (b_insts p) (b_insts p').
Proof.
  unfold analyze_global. destruct (block_analysis env p (b_snaps p)) as [p1|] eqn:E1; [|discriminate]. intros E.
  eapply later_trans; [|exact (proj1 (refresh_later _ _ E))]. unfold block_analysis in E1.
  destruct (run_abstract_interp env p (b_snaps p)) as [[[rs sn] used]|]; [|discriminate]. destruct (_ || _).
  - destruct (commit_resolved rs (with_snaps p sn used)) eqn:E3; [|discriminate]. injection E1 as <-. exact (commit_later _ _ _ E3).
  - injection E1 as <-. apply later_refl.
Qed.

(** ** Deduplication. *)
(** With dynamic jumps, a live JUMPDEST can only be the first instruction of its block. *)
Lemma build_jumpdest all : forall l i cur pending, skipn i all = l -> (i <= length all)%nat ->
  (forall s e, cur = Some (s, e) -> (e <= i)%nat /\
     (forall k d, (s < k < e)%nat -> nth_error all k = Some d -> is_jumpdest d = true -> is_dead d = true) /\
     (forall k d, (e <= k < i)%nat -> nth_error all k = Some d -> is_dead d = true)) ->
  forall s e, In (s, e) (build true all i l cur pending) -> forall k d, (s < k < e)%nat -> nth_error all k = Some d -> is_jumpdest d = true -> is_dead d = true.
Proof.
  induction l as [|x l IH]; intros i cur pending SK Hi C s e; cbn [build].
  - destruct cur as [[s0 e0]|]; [|intros []]. intros [E|[]]. injection E as <- <-. apply (C s0 e0 eq_refl).
  - pose proof (skipn_tail x l i all SK) as SK'.
    assert (Hx : nth_error all i = Some x) by (rewrite <- (Nat.add_0_r i), <- nth_skipn, SK; reflexivity).
    pose proof (nth_lt _ _ _ Hx) as Hi'.
    assert (NEW : In (s, e) (build true all (S i) l (Some (i, S i)) false) -> forall k d, (s < k < e)%nat -> nth_error all k = Some d -> is_jumpdest d = true -> is_dead d = true).
    { apply (IH (S i) (Some (i, S i)) false SK' Hi'). intros s0 e0 E0. injection E0 as <- <-. split; [lia|]. split; intros; lia. }
    destruct (is_dead x) eqn:D.
    + apply (IH (S i) cur _ SK' Hi').
      intros s0 e0 E0. destruct (C s0 e0 E0) as (C1 & C2 & C3). split; [lia|]. split; [exact C2|]. intros k d Hk Hd.
      destruct (Nat.eq_dec k i) as [-> |Ne]; [congruence|]. apply (C3 k d); [lia|exact Hd].
    + destruct cur as [[s0 e0]|]; [|exact NEW]. destruct (C s0 e0 eq_refl) as (C1 & C2 & C3).
      destruct (is_leader true all i || pending) eqn:EL.
      * intros [E|H]; [injection E as <- <-; exact C2|apply NEW; exact H].
      * apply (IH (S i) (Some (s0, S i)) false SK' Hi'). intros s1 e1 E1. injection E1 as <- <-. split; [lia|]. split; [|intros; lia].
        intros k d Hk Hd J. destruct (Nat.eq_dec k i) as [-> |Ne].
        -- exfalso. apply orb_false_iff in EL as [EL _]. unfold is_leader in EL. rewrite Hd in EL. unfold is_reachable_jumpdest in EL. rewrite J in EL.
           rewrite orb_true_r in EL. discriminate.
        -- destruct (Nat.lt_ge_cases k e0) as [Lt|Ge]; [apply (C2 k d); auto; lia|apply (C3 k d); [lia|exact Hd]].
Qed.
Lemma block_jumpdest p b bl : rebuilt p -> b_dyn p = true -> nth_error (b_blocks p) b = Some bl -> block_key p bl <> None ->
  forall k d, In k (blk_insts bl) -> nth_error (b_insts p) k = Some d -> is_jumpdest d = true -> is_dead d = true.
Proof.
  intros RB DY Hb KEY k d Hk Hd J. rewrite in_blk in Hk. destruct (block_key p bl) as [ky|] eqn:EK; [|congruence].
  destruct (block_key_spec _ _ _ EK) as (t & f & _ & Hf & _ & NJ & _). specialize (NJ DY).
  destruct (Nat.eq_dec k (bk_start bl)) as [-> |N]; [congruence|].
  rewrite RB, nth_error_map in Hb. destruct (nth_error (ranges _ _) b) as [[s e]|] eqn:Er; [|discriminate].
  apply (f_equal (fun o => match o with Some x => x | None => bl end)) in Hb. cbn in Hb. subst bl. cbn in *. rewrite DY in Er. apply nth_error_In in Er.
  eapply (build_jumpdest (b_insts p) (b_insts p) 0 None false); [reflexivity|lia|discriminate|exact Er| |exact Hd|exact J]. lia.
Qed.
Lemma kill_later l idx : forall l0, later l0 l -> (existsb unresolved l0 = true -> forall k d, In k idx -> nth_error l0 k = Some d -> is_jumpdest d = true -> is_dead d = true) ->
  later l0 (kill l idx).
Proof.
  revert l. induction idx as [|i idx IH]; intros l l0 LT H; [exact LT|]. cbn. apply IH; [|intros E k d Hk; apply (H E); right; exact Hk].
  destruct LT as [L P]. assert (U : forall k d', nth_error (upd_nth i set_dead l) k = Some d' ->
    exists d, nth_error l k = Some d /\ (d_op d' = d_op d /\ (sane d -> sane d')) /\ (unresolved d' = true -> unresolved d = true) /\ (k <> i -> d' = d)).
  { intros k d' Hk. rewrite nth_upd_nth in Hk. destruct (Nat.eqb_spec k i) as [-> |N].
    - destruct (nth_error l i) as [d|]; [|discriminate]. cbn in Hk. injection Hk as <-. exists d. split; [reflexivity|]. split; [auto|].
      split; [|congruence]. unfold unresolved. cbn. rewrite andb_false_r. discriminate.
    - exists d'. auto. }
  assert (EX : existsb unresolved (upd_nth i set_dead l) = true -> existsb unresolved l = true).
  { intros E. apply existsb_exists in E as (e' & Hin & UE). apply In_nth_error in Hin as [m Hm]. destruct (U m e' Hm) as (e & He & _ & Y & _).
    apply existsb_exists. exists e. split; [eapply nth_error_In; eauto|auto]. }
  split; [rewrite upd_nth_length; exact L|]. intros k d' Hk. destruct (U k d' Hk) as (d & Hd & [O O1] & X & S). destruct (P k d Hd) as (d0 & H0 & [O0 O2] & X0 & D0).
  exists d0. split; [exact H0|]. split; [split; [congruence|auto]|]. split; [auto|]. intros E J D. specialize (EX E).
  destruct (Nat.eq_dec k i) as [-> |N]; [|rewrite (S N); auto].
  exfalso. assert (is_dead d0 = true); [|congruence]. apply (H (later_unres _ _ (conj L P) EX) i d0); auto. left. reflexivity.
Qed.
Lemma retarget_later ps a b : forall l, later l (retarget ps a b l).
Proof.
  unfold retarget. induction ps as [|i ps IH]; intros l; cbn [fold_left]; [apply later_refl|].
  eapply later_trans; [|apply IH]. destruct (has (jumps_to a) l i); [|apply later_refl]. apply later_upd. auto.
Qed.
Lemma merge_dup_later p0 p c d db p' : rebuilt p0 -> (existsb unresolved (b_insts p0) = true -> b_dyn p0 = true) -> nth_error (b_blocks p0) d = Some db -> block_key p0 db <> None ->
  later (b_insts p0) (b_insts p) -> b_blocks p = b_blocks p0 -> merge_dup c p d = Some p' -> later (b_insts p0) (b_insts p') /\ b_blocks p' = b_blocks p0.
Proof.
  intros RB DY Hd KEY LT BL E. unfold merge_dup in E. rewrite BL, Hd in E. destruct (merge_multi _ _ _ _); [|discriminate]. injection E as <-. cbn.
  split; [|reflexivity]. eapply later_trans; [|apply retarget_later].
  assert (K : later (b_insts p0) (kill (b_insts p) (blk_insts db))).
  { apply kill_later; [exact LT|]. intros EX k x Hk Hx J. eapply (block_jumpdest p0 d db RB (DY EX) Hd KEY); eauto. }
  destruct (_ && _ && _); [|exact K]. eapply later_trans; [exact K|]. apply later_upd. auto.
Qed.
Lemma merge_dups_later p0 c ds : rebuilt p0 -> (existsb unresolved (b_insts p0) = true -> b_dyn p0 = true) ->
  (forall d, In d ds -> exists db, nth_error (b_blocks p0) d = Some db /\ block_key p0 db <> None) ->
  forall p p', later (b_insts p0) (b_insts p) -> b_blocks p = b_blocks p0 -> merge_dups c p ds = Some p' -> later (b_insts p0) (b_insts p') /\ b_blocks p' = b_blocks p0.
Proof.
  intros RB DY. induction ds as [|d ds IH]; intros G p p' LT BL E; cbn in E; [injection E as <-; auto|].
  destruct (merge_dup c p d) as [p1|] eqn:E1; [|discriminate]. destruct (G d (or_introl eq_refl)) as (db & Hd & K).
  destruct (merge_dup_later p0 p c d db p1 RB DY Hd K LT BL E1) as [A B]. apply (IH (fun e He => G e (or_intror He)) p1 p' A B E).
Qed.
Lemma merge_groups_later p0 local gs : rebuilt p0 -> (existsb unresolved (b_insts p0) = true -> b_dyn p0 = true) -> incl gs (groups p0) ->
  forall p p', later (b_insts p0) (b_insts p) -> b_blocks p = b_blocks p0 -> merge_groups local p gs = Some p' -> later (b_insts p0) (b_insts p').
Proof.
  intros RB DY. induction gs as [|g gs IH]; intros IN p p' LT BL E; cbn in E; [injection E as <-; exact LT|].
  destruct (merge_group local p g) as [p1|] eqn:E1; [|discriminate].
  assert (X : later (b_insts p0) (b_insts p1) /\ b_blocks p1 = b_blocks p0).
  { unfold merge_group in E1. destruct g as [|c [|d ds]]; try (injection E1 as <-; auto).
    destruct (nth_error (b_blocks p) c) as [cb|]; [|discriminate]. destruct (groups_ok p0 _ (IN _ (or_introl eq_refl))) as (k & _ & _ & G).
    eapply (merge_dups_later p0 cb (d :: ds) RB DY); [|..|exact E1]; [|exact LT|exact BL].
    intros e He. destruct (G e (or_intror He)) as (_ & eb & He1 & Ke). exists eb. split; [exact He1|congruence]. }
  destruct X as [A B]. apply (IH (fun x Hx => IN x (or_intror Hx)) p1 p' A B E).
Qed.
Lemma dedup_later ord local : (forall gs, Permutation (ord gs) gs) -> forall fuel p p', rebuilt p -> b_dyn p = existsb unresolved (b_insts p) ->
  dedup_blocks ord fuel local p = Some p' -> later (b_insts p) (b_insts p').
Proof.
  intros PO. assert (ONE : forall p p1 n, rebuilt p -> b_dyn p = existsb unresolved (b_insts p) -> dedup_once ord local p = Some (p1, n) -> later (b_insts p) (b_insts p1)).
  { intros p p1 n RB DY E. unfold dedup_once in E. destruct (merge_groups local p (ord (groups p))) as [q|] eqn:EM; [|discriminate]. injection E as <- _.
    eapply (merge_groups_later p local (ord (groups p)) RB); [congruence| |apply later_refl|reflexivity|exact EM].
    intros g Hg. eapply Permutation_in; [apply PO|exact Hg]. }
  induction fuel as [|f IH]; intros p p' RB DY E; cbn [dedup_blocks] in E; destruct (dedup_once ord local p) as [[p1 n]|] eqn:E1; try discriminate;
    pose proof (ONE _ _ _ RB DY E1) as L1; destruct (n =? 0)%nat; try discriminate; try (injection E as <-; exact L1).
  destruct (refresh_cfg p1) as [p2|] eqn:E2; [|discriminate]. destruct (refresh_later _ _ E2) as (L2 & D2 & R2).
  eapply later_trans; [exact L1|]. eapply later_trans; [exact L2|]. eapply IH; eauto.
Qed.

(** ** The whole pipeline. *)
Lemma analyze_later env prog p : analyze env prog = Some p -> later prog (b_insts p) /\ b_dyn p = existsb unresolved (b_insts p) /\ rebuilt p.
Proof.
  unfold analyze. destruct (analyze_local env (initial prog)) as [pl|] eqn:E1; [|discriminate]. intros E.
  pose proof (local_later _ _ _ E1) as L1. pose proof (global_later _ _ _ E) as L2. cbn in L1. unfold analyze_global in E.
  destruct (block_analysis env pl (b_snaps pl)); [|discriminate]. destruct (refresh_later _ _ E) as (_ & D & R).
  split; [eapply later_trans; eassumption|auto].
Qed.
Lemma analyze_dedup_later ord env prog p : (forall gs, Permutation (ord gs) gs) -> analyze_dedup ord env prog = Some p ->
  later prog (b_insts p) /\ b_dyn p = existsb unresolved (b_insts p).
Proof.
  intros PO. unfold analyze_dedup. destruct (analyze_local env (initial prog)) as [pl|] eqn:E1; [|discriminate].
  destruct (analyze_global env pl) as [pg|] eqn:E2; [|discriminate]. destruct (dedup_blocks ord (length prog) (b_snaps pl) pg) as [pd|] eqn:E3; [|discriminate]. intros E.
  destruct (analyze_later env prog pg) as (L1 & D1 & R1); [unfold analyze; rewrite E1; exact E2|].
  pose proof (dedup_later ord _ PO _ _ _ R1 D1 E3) as L2. destruct (refresh_later _ _ E) as (L3 & D3 & _). split; [|exact D3].
  eapply later_trans; [exact L1|]. eapply later_trans; eassumption.
Qed.

(** ** The table. *)
(** A value is compared with the pcs of the table after saturation to 64 bits; pcs are below 2^64 - 1. *)
Lemma saturate_spec v c : 0 <= v -> c < 2 ^ 64 - 1 -> c = saturate64 v <-> c = v.
Proof.
  intros V C. unfold saturate64. destruct (v <=? 2 ^ 64 - 1) eqn:E; [|lia]. rewrite Z.mod_small by lia. reflexivity.
Qed.
Lemma switch_spec env p ts v : switch_pcs env p ts v =
  match find (fun t => a_const env t =? v) ts with Some t => effective_entry p t | None => JInvalidJump end.
Proof. induction ts as [|t ts IH]; [reflexivity|]. cbn. destruct (a_const env t =? v); [reflexivity|exact IH]. Qed.

Lemma table_exact env prog p : later prog (b_insts p) -> raw prog -> existsb unresolved (b_insts p) = true -> key_dead p -> NoDup (map fst (b_redirects p)) ->
  (forall v j, a_dest env v = Some j <-> (exists d, nth_error prog j = Some d /\ d_op d = 0x5b) /\ a_const env j = v) ->
  (forall j d, nth_error prog j = Some d -> d_op d = 0x5b -> a_const env j < 2 ^ 64 - 1) ->
  forall v, 0 <= v -> switch_pcs env p (table_insts p) (saturate64 v) = match a_dest env v with Some j => JGoto j | None => JInvalidJump end.
Proof.
  intros [L P] RAW EX KD ND DS PC v V. rewrite switch_spec.
  assert (IN : forall j, In j (table_insts p) <-> exists d, nth_error prog j = Some d /\ d_op d = 0x5b).
  { intros j. unfold table_insts. rewrite filter_In, in_seq. split.
    - intros [_ H]. destruct (nth_error (b_insts p) j) as [d'|] eqn:E; [|discriminate]. destruct (P j d' E) as (d & Hd & [O _] & _). exists d. split; [exact Hd|].
      apply andb_true_iff in H as [H _]. unfold is_jumpdest, OP_JUMPDEST in H. lia.
    - intros (d & Hd & O). assert (Hj : (j < length (b_insts p))%nat) by (rewrite L; eapply nth_lt; eauto). split; [lia|].
      destruct (nth_some _ _ Hj) as [d' Hd']. rewrite Hd'. destruct (P j d' Hd') as (d0 & H0 & [O' _] & _ & D). assert (d0 = d) by congruence. subst d0.
      assert (J : is_jumpdest d = true) by (unfold is_jumpdest, OP_JUMPDEST; lia).
      rewrite (D EX J); [|unfold is_dead; apply (RAW j d Hd)]. unfold is_jumpdest, OP_JUMPDEST in *. rewrite O', J. reflexivity. }
  destruct (find _ (table_insts p)) as [j|] eqn:F.
  - apply find_some in F as [F1 F2]. pose proof (proj1 (IN j) F1) as (d & Hd & O). apply Z.eqb_eq in F2. apply (saturate_spec v _ V (PC j d Hd O)) in F2.
    assert (E : a_dest env v = Some j) by (apply DS; eauto). rewrite E. unfold effective_entry, effective_inst.
    destruct (lookup j (b_redirects p)) as [w|] eqn:EL.
    + exfalso. apply lookup_in in EL. apply (KD j w EL). unfold table_insts in F1. apply filter_In in F1 as [_ F1].
      destruct (nth_error (b_insts p) j) as [d'|] eqn:E'; [|discriminate]. apply andb_true_iff in F1 as [_ F1]. exists d'. split; [exact E'|]. destruct (is_dead d'); [discriminate|reflexivity].
    + unfold table_insts in F1. apply filter_In in F1 as [_ F1]. destruct (nth_error (b_insts p) j) as [d'|]; [|discriminate]. apply andb_true_iff in F1 as [_ F1].
      destruct (is_dead d'); [discriminate|reflexivity].
  - destruct (a_dest env v) as [j|] eqn:E; [|reflexivity]. exfalso. apply DS in E as [X EC]. pose proof X as (d & Hd & O).
    apply (find_none _ _ F) in X || (pose proof (find_none _ _ F j (proj2 (IN j) X)) as Y; cbn in Y; apply Z.eqb_neq in Y; apply Y; apply (saturate_spec v _ V (PC j d Hd O)); exact EC).
Qed.
