(** Soundness of the memory section analysis. *)
From Verif Require Import MemSecModel MemSecSpec FlowSpec ArithSpec CfgProof BlockProof LocalProof GlobalProof FixpointProof AnalysisProof.
From Coq Require Import ZifyBool.
Open Scope Z_scope.

(** ** States. *)
(** What a state claims about a memory size. *)
Definition holds (s : mstate) (m : Z) : Prop :=
  exists k, ms_known s = Some k /\ k <= m /\ forall e, ms_exact s = Some e -> m = e.
Definition sub (x s : mstate) : Prop := forall m, holds x m -> holds s m.

Lemma opt_eqb_eq a b : opt_eqb a b = true <-> a = b.
Proof. destruct a, b; cbn; split; intros H; try discriminate; try reflexivity; [f_equal; lia|injection H; lia]. Qed.
Lemma mstate_eqb_eq a b : mstate_eqb a b = true <-> a = b.
Proof.
  unfold mstate_eqb. destruct a as [a1 a2], b as [b1 b2]. cbn. rewrite andb_true_iff, !opt_eqb_eq. split.
  - intros [-> ->]. reflexivity.
  - intros H. injection H. auto.
Qed.
Lemma join_old s x m : holds s m -> holds (join_state s x) m.
Proof.
  intros (k & K & L & E). unfold join_state. rewrite K. destruct (ms_known x) as [kx|].
  - exists (Z.min k kx). cbn. split; [reflexivity|]. split; [lia|]. intros e.
    destruct (ms_exact s) as [a|], (ms_exact x) as [b|]; try discriminate. destruct (a =? b); [|discriminate].
    intros H. injection H as <-. apply E. reflexivity.
  - exists k. auto.
Qed.
Lemma join_new s x m : holds x m -> holds (join_state s x) m.
Proof.
  intros (k & K & L & E). unfold join_state. rewrite K. destruct (ms_known s) as [ks|].
  - exists (Z.min ks k). cbn. split; [reflexivity|]. split; [lia|]. intros e.
    destruct (ms_exact s) as [a|], (ms_exact x) as [b|]; try discriminate. destruct (Z.eqb_spec a b) as [->|]; [|discriminate].
    intros H. injection H as <-. apply E. reflexivity.
  - exists k. auto.
Qed.

(** ** Accesses. *)
Definition LIM : Z := 2 ^ 63.
(** Access [a] as seen by the analysis describes a need of [n] bytes. *)
Definition desc (a : access) (n : Z) : Prop :=
  0 <= n /\ (n < LIM -> min_memory_size a <= n) /\
  (forall x, exact_memory_size a = Some x -> 0 <= x /\ (n < LIM \/ x < LIM -> x = n)).

Lemma round_spec x : 0 <= x -> x + 31 < U64 -> round_memory_size x = 32 * ((x + 31) / 32).
Proof. intros H L. unfold round_memory_size, sat_u64. rewrite Z.min_l by lia. lia. Qed.
Lemma round_nonneg x : 0 <= x -> 0 <= round_memory_size x.
Proof. intros H. unfold round_memory_size, sat_u64. assert (0 <= Z.min (x + 31) (U64 - 1) / 32) by (apply Z.div_pos; unfold U64; lia). lia. Qed.
Lemma round_small x : 0 <= x -> round_memory_size (sat_u64 x) < LIM -> x + 31 < U64.
Proof.
  intros H. unfold round_memory_size, sat_u64, LIM, U64. intros L.
  destruct (Z_lt_le_dec (x + 31) (2 ^ 64)) as [|G]; [assumption|exfalso].
  assert (Z.min (Z.min x (2 ^ 64 - 1) + 31) (2 ^ 64 - 1) = 2 ^ 64 - 1) as E by lia. rewrite E in L.
  change ((2 ^ 64 - 1) / 32 * 32) with (2 ^ 64 - 32) in L. lia.
Qed.

Lemma desc_range o l off len : 0 <= off -> 0 <= len -> (forall x, o = Some x -> x = off) -> (forall x, l = Some x -> x = len) ->
  desc (o, l) (range_size (off, len)).
Proof.
  intros H1 H2 Ho Hl. unfold desc, range_size.
  assert (D : 0 <= (off + len + 31) / 32) by (apply Z.div_pos; lia).
  assert (LE : (len + 31) / 32 <= (off + len + 31) / 32) by (apply Z.div_le_mono; lia).
  assert (DM : off + len + 31 < 32 * ((off + len + 31) / 32) + 32) by (pose proof (Z.mul_succ_div_gt (off + len + 31) 32); lia).
  destruct (Z.eqb_spec len 0) as [->|N].
  - split; [lia|]. split.
    + intros _. destruct l as [x|]; [rewrite (Hl x eq_refl)|]; destruct o; cbn; lia.
    + intros y Hy. destruct l as [x|]; [rewrite (Hl x eq_refl) in Hy|]; destruct o; cbn in Hy; try discriminate; injection Hy as <-; lia.
  - split; [lia|].
    assert (S : 32 * ((off + len + 31) / 32) < LIM -> off + len + 31 < U64) by (unfold LIM, U64; lia).
    assert (SAT : forall x, 0 <= x -> x + 31 < U64 -> sat_u64 x = x) by (unfold sat_u64, U64; lia).
    destruct l as [x|]; [rewrite (Hl x eq_refl)|].
    + assert (Ne : match len with 0 => false | _ => true end = true) by (destruct len; lia).
      split.
      * intros L. specialize (S L). unfold min_memory_size. destruct o as [w|].
        -- rewrite (Ho w eq_refl). destruct len; try lia. rewrite SAT, round_spec by lia. lia.
        -- destruct len; try lia. rewrite round_spec by lia. lia.
      * intros y. unfold exact_memory_size. destruct o as [w|].
        -- rewrite (Ho w eq_refl). destruct len as [|q|q]; try lia. intros E. injection E as <-.
           split; [apply round_nonneg; unfold sat_u64, U64; lia|]. intros [L|L].
           ++ specialize (S L). rewrite SAT, round_spec by lia. lia.
           ++ apply round_small in L; [|lia]. rewrite SAT, round_spec by lia. lia.
        -- destruct len; try lia; discriminate.
    + unfold min_memory_size, exact_memory_size. destruct o; (split; [lia|intros x Hx; discriminate]).
Qed.
Lemma desc_unknown o n : 0 <= n -> desc (o, None) n.
Proof. intros H. unfold desc, min_memory_size, exact_memory_size. destruct o; (split; [lia|split; [lia|intros x Hx; discriminate]]). Qed.

Lemma nth_firstn {A} (l : list A) d : forall n k, (k < n)%nat -> nth k (firstn n l) d = nth k l d.
Proof. induction l as [|x l IH]; intros [|n] [|k] H; cbn; try lia; try reflexivity. apply IH. lia. Qed.
Lemma evm_mem_firstn op n st : mem_operands op <= Z.of_nat n -> evm_mem op (firstn n st) = evm_mem op st.
Proof.
  intros H. unfold evm_mem. f_equal. f_equal.
  unfold evm_ranges, mem_operands in *.
  repeat match goal with |- context [match ?x with _ => _ end] => is_var x; destruct x end; try reflexivity;
    rewrite !nth_firstn by lia; reflexivity.
Qed.
Lemma range_size_nonneg o l : 0 <= o -> 0 <= l -> 0 <= range_size (o, l).
Proof. intros. unfold range_size. destruct (l =? 0); [lia|]. assert (0 <= (o + l + 31) / 32) by (apply Z.div_pos; lia). lia. Qed.
Lemma range_max a b l : 0 <= a -> 0 <= b -> 0 <= l -> Z.max (range_size (a, l)) (range_size (b, l)) = range_size (Z.max a b, l).
Proof.
  intros. unfold range_size. destruct (l =? 0); [lia|]. destruct (Z.max_spec a b) as [[C ->]|[C ->]].
  - assert ((a + l + 31) / 32 <= (b + l + 31) / 32) by (apply Z.div_le_mono; lia). lia.
  - assert ((b + l + 31) / 32 <= (a + l + 31) / 32) by (apply Z.div_le_mono; lia). lia.
Qed.

(** ** Runs over accesses. *)
Definition acc_step (s : mstate) (a : access) : mstate :=
  mkMst (match ms_known s with Some k => Some (Z.max k (min_memory_size a)) | None => None end) (zip_max (ms_exact s) (exact_memory_size a)).
Definition walk (l : list access) (s : mstate) : mstate := fold_left acc_step l s.

Lemma acc_holds a n s m : desc a n -> holds s m -> Z.max m n < LIM -> holds (acc_step s a) (Z.max m n).
Proof.
  intros (D0 & D1 & D2) (k & K & L & E) B. exists (Z.max k (min_memory_size a)). unfold acc_step. cbn. rewrite K.
  split; [reflexivity|]. split; [lia|]. intros e H. destruct (ms_exact s) as [es|] eqn:Es; [|discriminate].
  destruct (exact_memory_size a) as [x|] eqn:Ex; [|discriminate]. cbn in H. injection H as <-.
  rewrite (E es eq_refl) in *. destruct (D2 x eq_refl) as [_ D3]. rewrite D3 by lia. reflexivity.
Qed.
Lemma walk_holds : forall l ns s m, Forall2 desc l ns -> holds s m -> Z.max m (fold_right Z.max 0 ns) < LIM -> 0 <= m ->
  holds (walk l s) (Z.max m (fold_right Z.max 0 ns)).
Proof.
  intros l ns s m F. revert s m. induction F as [|a n l ns D F IH]; intros s m H B P; cbn [walk fold_left fold_right] in *.
  - replace (Z.max m 0) with m by lia. exact H.
  - replace (Z.max m (Z.max n (fold_right Z.max 0 ns))) with (Z.max (Z.max m n) (fold_right Z.max 0 ns)) by lia.
    apply IH; [apply acc_holds; [exact D|exact H|lia]|lia|lia].
Qed.
Lemma walk_app l1 l2 s : walk (l1 ++ l2) s = walk l2 (walk l1 s).
Proof. apply fold_left_app. Qed.
Lemma zip_max_assoc a b c : zip_max (zip_max a b) c = zip_max a (zip_max b c).
Proof. destruct a, b, c; cbn; try reflexivity. f_equal. lia. Qed.
Lemma zip_max_0 a : (forall x, a = Some x -> 0 <= x) -> zip_max a (Some 0) = a.
Proof. destruct a; cbn; [|reflexivity]. intros H. specialize (H z eq_refl). f_equal. lia. Qed.
Lemma walk_summary l : forall s m e, walk l (mkMst (match ms_known s with Some k => Some (Z.max k m) | None => None end) (zip_max (ms_exact s) e)) =
  mkMst (match ms_known s with Some k => Some (Z.max k (fold_left (fun m a => Z.max m (min_memory_size a)) l m)) | None => None end)
        (zip_max (ms_exact s) (fold_left (fun m a => zip_max m (exact_memory_size a)) l e)).
Proof.
  induction l as [|a l IH]; intros s m e; cbn [fold_left]; [reflexivity|]. rewrite <- IH.
  change (walk (a :: l) ?x) with (walk l (acc_step x a)). unfold acc_step at 1. cbn [ms_known ms_exact].
  rewrite zip_max_assoc. destruct (ms_known s) as [k|]; [|reflexivity].
  replace (Z.max (Z.max k m) (min_memory_size a)) with (Z.max k (Z.max m (min_memory_size a))) by lia. reflexivity.
Qed.
Lemma exit_walk p b s : (forall k, ms_known s = Some k -> 0 <= k) -> (forall e, ms_exact s = Some e -> 0 <= e) ->
  exit_state p b s = walk (block_accesses p b) s.
Proof.
  intros K E. unfold exit_state, block_min, block_exact. rewrite <- (walk_summary (block_accesses p b) s 0 (Some 0)).
  f_equal. rewrite zip_max_0 by exact E. destruct s as [k e]. cbn in *. f_equal. destruct k as [k|]; [|reflexivity].
  specialize (K k eq_refl). f_equal. lia.
Qed.

(** ** The fixpoint. *)
Lemma update_fold inc : forall bs st q st' q', fold_left (update_entry inc) bs (st, q) = (st', q') ->
  (forall b, st' b = st b \/ In b q') /\ (forall b, sub (st b) (st' b)) /\ (forall b, In b bs -> sub inc (st' b)) /\
  (forall b, In b q -> In b q') /\ (forall b, In b q' -> In b q \/ In b bs).
Proof.
  induction bs as [|b0 bs IH]; intros st q st' q' H; cbn [fold_left] in H.
  - injection H as <- <-. split; [auto|]. split; [intros b m Hm; exact Hm|]. split; [intros b []|auto].
  - unfold update_entry at 2 in H. destruct (mstate_eqb (join_state (st b0) inc) (st b0)) eqn:E.
    + apply mstate_eqb_eq in E. destruct (IH _ _ _ _ H) as (A & B & C & D & F). split; [exact A|]. split; [exact B|].
      split; [|split; [exact D|intros b Hb; destruct (F b Hb); cbn; auto]].
      intros b [<- |Hb]; [|apply C, Hb]. intros m Hm. apply B. rewrite <- E. apply join_new, Hm.
    + destruct (IH _ _ _ _ H) as (A & B & C & D & F). split; [|split; [|split; [|split]]].
      * intros b. destruct (A b) as [X|X]; [|auto]. destruct (Nat.eq_dec b b0) as [->|N].
        -- right. apply D. apply wpush_in. auto.
        -- left. rewrite X. apply upd_other, N.
      * intros b m Hm. apply B. destruct (Nat.eq_dec b b0) as [->|N]; [rewrite upd_same; apply join_old, Hm|rewrite upd_other by exact N; exact Hm].
      * intros b [<- |Hb]; [|apply C, Hb]. intros m Hm. apply B. rewrite upd_same. apply join_new, Hm.
      * intros b Hb. apply D, wpush_in. auto.
      * intros b Hb. destruct (F b Hb) as [X|X]; [|cbn; auto]. unfold wpush in X. destruct (existsb (Nat.eqb b0) q); [auto|].
        apply in_app_or in X as [X|[<- |[]]]; cbn; auto.
Qed.

Section Fix.
  Variable p : bc.
  Notation blocks := (b_blocks p).

  Definition msettled (l : mloop) (b : nat) (bl : blk) : Prop :=
    (forall b', In b' (bk_succs bl) -> sub (exit_state p bl (ml_states l b)) (ml_states l b')) /\
    (dyn_block p bl = true -> sub (exit_state p bl (ml_states l b)) (ml_dyn l)).
  Record minv (l : mloop) (extra : list nat) : Prop := {
    mi_zero : holds (ml_states l 0%nat) 0;
    mi_set : forall b bl, nth_error blocks b = Some bl -> ms_known (ml_states l b) <> None ->
      In b extra \/ In b (ml_queue l) \/ msettled l b bl;
    mi_dyn : forall b, In b (dyn_targets p) -> sub (ml_dyn l) (ml_states l b);
    mi_nonneg : forall b, (forall k, ms_known (ml_states l b) = Some k -> 0 <= k) /\ (forall e, ms_exact (ml_states l b) = Some e -> 0 <= e);
    mi_nonneg_dyn : (forall k, ms_known (ml_dyn l) = Some k -> 0 <= k) /\ (forall e, ms_exact (ml_dyn l) = Some e -> 0 <= e)
  }.
  Definition nn (s : mstate) : Prop := (forall k, ms_known s = Some k -> 0 <= k) /\ (forall e, ms_exact s = Some e -> 0 <= e).
  Lemma nn_join s x : nn s -> nn x -> nn (join_state s x).
  Proof.
    intros [A B] [C D]. unfold join_state. destruct (ms_known x) as [kx|] eqn:Kx; [|split; auto].
    destruct (ms_known s) as [ks|] eqn:Ks; [|split; [rewrite Kx|]; auto]. split; cbn.
    - intros k H. injection H as <-. specialize (A _ eq_refl). specialize (C _ eq_refl). lia.
    - intros e. destruct (ms_exact s) as [a|]; [|discriminate]. destruct (ms_exact x); [|discriminate]. destruct (a =? z); [|discriminate].
      intros H. injection H as <-. auto.
  Qed.
  Lemma fold_max_nonneg l : forall m, 0 <= m -> 0 <= fold_left (fun m a => Z.max m (min_memory_size a)) l m.
  Proof. induction l as [|a l IH]; intros m H; cbn; [exact H|]. apply IH. lia. Qed.
  Lemma nn_exit b s : nn s -> nn (exit_state p b s).
  Proof.
    intros [A B]. unfold exit_state. split; cbn.
    - intros k. destruct (ms_known s) as [k0|]; [|discriminate]. intros H. injection H as <-. specialize (A _ eq_refl). lia.
    - intros e. destruct (ms_exact s) as [a|]; [|discriminate]. destruct (block_exact p b); [|discriminate]. cbn.
      intros H. injection H as <-. specialize (B _ eq_refl). lia.
  Qed.
  Lemma nn_fold inc : nn inc -> forall bs st q st' q', fold_left (update_entry inc) bs (st, q) = (st', q') ->
    (forall b, nn (st b)) -> forall b, nn (st' b).
  Proof.
    intros NI. induction bs as [|b0 bs IH]; intros st q st' q' H A; cbn [fold_left] in H; [injection H as <- <-; exact A|].
    unfold update_entry at 2 in H. destruct (mstate_eqb _ _); eapply IH; eauto.
    intros b. destruct (Nat.eq_dec b b0) as [->|N]; [rewrite upd_same; apply nn_join; auto|rewrite upd_other by exact N; apply A].
  Qed.
  Lemma sub_refl s : sub s s. Proof. intros m H. exact H. Qed.

  Lemma ml_step_inv bid l : minv l [bid] -> minv (ml_step p bid l) [].
  Proof.
    intros [Z0 SET DYN NN ND]. unfold ml_step. destruct (nth_error blocks bid) as [b|] eqn:Hb.
    2:{ constructor; auto. intros b bl H K. destruct (SET b bl H K) as [[<- |[]]|X]; [congruence|auto]. }
    set (ex := exit_state p b (ml_states l bid)).
    destruct (ms_known ex) as [kx|] eqn:Kx.
    2:{ constructor; auto. intros b' bl H K. destruct (SET b' bl H K) as [[<- |[]]|X]; [|auto].
        unfold ex, exit_state in Kx. cbn in Kx. destruct (ms_known (ml_states l bid)); [discriminate|congruence]. }
    destruct (fold_left (update_entry ex) (bk_succs b) (ml_states l, ml_queue l)) as [st1 q1] eqn:F1.
    destruct (update_fold _ _ _ _ _ _ F1) as (A1 & B1 & C1 & D1 & _).
    assert (NE : nn ex) by (apply nn_exit, NN).
    pose proof (nn_fold ex NE _ _ _ _ _ F1 NN) as N1.
    (* the general shape of the result *)
    assert (G : forall st2 q2 dx, (forall b, st2 b = st1 b \/ In b q2) -> (forall b, sub (st1 b) (st2 b)) ->
      (forall b, In b q1 -> In b q2) -> sub (ml_dyn l) dx -> (dyn_block p b = true -> sub ex dx) -> nn dx -> (forall b, nn (st2 b)) ->
      (forall t, In t (dyn_targets p) -> sub dx (st2 t)) -> minv (mkMl st2 q2 dx) []).
    { intros st2 q2 dx A2 B2 D2 SD SX ND2 N2 T2. constructor; cbn; [apply B2, B1, Z0| |exact T2|exact N2|exact ND2].
      intros b' bl H K. destruct (A2 b') as [E2|X]; [|auto]. destruct (A1 b') as [E1|X]; [|auto].
      assert (E : st2 b' = ml_states l b') by congruence.
      destruct (Nat.eq_dec b' bid) as [->|N].
      - right; right. assert (bl = b) by congruence. subst bl. unfold msettled; cbn. rewrite E. fold ex. split.
        + intros c Hc m Hm. apply B2, C1; auto.
        + exact SX.
      - rewrite E in K. destruct (SET b' bl H K) as [[X|[]]|[X|[S1 S2]]]; [congruence|auto|right; right].
        unfold msettled; cbn. rewrite E. split.
        + intros c Hc m Hm. apply B2, B1, (S1 c Hc), Hm.
        + intros Hd m Hm. apply SD, (S2 Hd), Hm. }
    destruct (dyn_block p b) eqn:DB.
    2:{ apply G; auto using sub_refl; try discriminate. intros t Ht m Hm. apply B1, DYN, Hm. exact Ht. }
    destruct (mstate_eqb (join_state (ml_dyn l) ex) (ml_dyn l)) eqn:EQ.
    - apply mstate_eqb_eq in EQ. apply G; auto using sub_refl.
      + intros _ m Hm. rewrite <- EQ. apply join_new, Hm.
      + intros t Ht m Hm. apply B1, DYN, Hm. exact Ht.
    - destruct (fold_left (update_entry (join_state (ml_dyn l) ex)) (dyn_targets p) (st1, q1)) as [st2 q2] eqn:F2.
      destruct (update_fold _ _ _ _ _ _ F2) as (A2 & B2 & C2 & D2 & _).
      assert (NJ : nn (join_state (ml_dyn l) ex)) by (apply nn_join; [exact ND|exact NE]).
      apply G; auto.
      + intros m Hm. apply join_old, Hm.
      + intros _ m Hm. apply join_new, Hm.
      + apply (nn_fold _ NJ _ _ _ _ _ F2 N1).
  Qed.

  Lemma ml_run_inv fuel : forall l st, minv l [] -> ml_run p fuel l = Some st ->
    exists l', minv l' [] /\ ml_queue l' = [] /\ ml_states l' = st.
  Proof.
    induction fuel as [|f IH]; intros l st I H; cbn [ml_run] in H; destruct (ml_queue l) as [|bid q] eqn:Q; try discriminate;
      try (injection H as <-; exists l; auto; fail).
    eapply IH; [|exact H]. apply ml_step_inv. destruct I as [Z0 SET DYN NN ND]. constructor; cbn; auto.
    intros b bl Hb K. destruct (SET b bl Hb K) as [[]|[X|X]]; [|auto]. rewrite Q in X. destruct X as [<- |X]; cbn; auto.
  Qed.
  Lemma ml_init_inv : minv ml_init [].
  Proof.
    constructor; unfold ml_init; cbn [ml_states ml_queue ml_dyn].
    - rewrite upd_same. exists 0. cbn. split; [reflexivity|]. split; [lia|]. intros e H. injection H as <-. reflexivity.
    - intros b bl _ K. right; left. destruct (Nat.eq_dec b 0) as [->|N]; [cbn; auto|]. rewrite upd_other in K by exact N. destruct K. reflexivity.
    - intros b _ m (k & K & _). discriminate.
    - intros b. destruct (Nat.eq_dec b 0) as [->|N]; [rewrite upd_same|rewrite upd_other by exact N]; cbn; split; intros x H; try discriminate; injection H as <-; lia.
    - split; intros x H; discriminate.
  Qed.

  (** What holds of the entry states once the loop is done. *)
  Lemma entry_states_spec fuel st : entry_states p fuel = Some st ->
    holds (st 0%nat) 0 /\ (forall b, nn (st b)) /\
    forall b bl, nth_error blocks b = Some bl -> ms_known (st b) <> None ->
      (forall b', In b' (bk_succs bl) -> sub (walk (block_accesses p bl) (st b)) (st b')) /\
      (dyn_block p bl = true -> forall t, In t (dyn_targets p) -> sub (walk (block_accesses p bl) (st b)) (st t)).
  Proof.
    intros H. destruct (ml_run_inv _ _ _ ml_init_inv H) as (l & [Z0 SET DYN NN ND] & Q & <-).
    split; [exact Z0|]. split; [exact NN|]. intros b bl Hb K. destruct (SET b bl Hb K) as [[]|[X|[S1 S2]]]; [rewrite Q in X; destruct X|].
    rewrite <- (exit_walk p bl (ml_states l b)) by apply NN. split; [exact S1|].
    intros D t Ht m Hm. apply (DYN t Ht), (S2 D), Hm.
  Qed.

  (** ** Termination. *)
  Variable n : nat.
  Hypothesis LEN : length blocks = n.
  Hypothesis SUCCS : forall b bl b', nth_error blocks b = Some bl -> In b' (bk_succs bl) -> (b' < n)%nat.
  Definition M : Z := fold_right Z.max 0 (map (block_min p) blocks).
  Definition small (s : mstate) : Prop := forall k, ms_known s = Some k -> 0 <= k <= M.
  Definition rank (s : mstate) : Z :=
    match ms_known s with None => 2 * M + 3 | Some k => 2 * k + match ms_exact s with Some _ => 1 | None => 0 end end.
  Lemma fold_right_max_in l x : In x l -> x <= fold_right Z.max 0 l.
  Proof. induction l as [|y l IH]; intros []; cbn; [subst; lia|]. specialize (IH H). lia. Qed.
  Lemma M_nonneg : 0 <= M.
  Proof. unfold M. induction (map (block_min p) blocks); cbn; lia. Qed.
  Lemma block_min_M b bl : nth_error blocks b = Some bl -> 0 <= block_min p bl <= M.
  Proof.
    intros H. split; [apply fold_max_nonneg; lia|]. apply fold_right_max_in. apply in_map_iff. exists bl. split; [reflexivity|]. eapply nth_error_In; eauto.
  Qed.
  Lemma rank_nonneg s : small s -> 0 <= rank s.
  Proof. intros H. pose proof M_nonneg. unfold rank. destruct (ms_known s) as [k|] eqn:K; [|lia]. specialize (H _ K). destruct (ms_exact s); lia. Qed.
  Lemma small_join s x : small s -> small x -> small (join_state s x).
  Proof.
    intros A B. unfold join_state. destruct (ms_known x) as [kx|] eqn:Kx; [|exact A].
    destruct (ms_known s) as [ks|] eqn:Ks; [|exact B]. intros k. cbn. intros H. injection H as <-. specialize (A _ Ks). specialize (B _ Kx). lia.
  Qed.
  Lemma rank_join s x : small s -> small x -> join_state s x <> s -> rank (join_state s x) < rank s.
  Proof.
    intros A B. pose proof M_nonneg as MN. unfold join_state. destruct (ms_known x) as [kx|] eqn:Kx; [|congruence].
    specialize (B _ Kx). destruct (ms_known s) as [ks|] eqn:Ks.
    - specialize (A _ Ks). destruct s as [sk se]. cbn in Ks. subst sk. unfold rank. cbn [ms_known ms_exact]. intros N.
      destruct se as [a|], (ms_exact x) as [b|]; try (destruct (Z.eqb_spec a b) as [->|]);
        destruct (Z.min_spec ks kx) as [[C E]|[C E]]; rewrite E in *; try lia; destruct (Z.eq_dec ks kx) as [->|]; try congruence; lia.
    - intros _. unfold rank. rewrite Ks, Kx. destruct (ms_exact x); lia.
  Qed.
  Definition total (st : nat -> mstate) : Z := fold_right (fun b a => rank (st b) + a) 0 (seq 0 n).
  Lemma total_upd st b s : (b < n)%nat -> total (upd st b s) = total st - rank (st b) + rank s.
  Proof.
    intros H. unfold total.
    assert (O : forall l, ~ In b l -> fold_right (fun c a => rank (upd st b s c) + a) 0 l = fold_right (fun c a => rank (st c) + a) 0 l).
    { induction l as [|c l IH]; intros N; cbn; [reflexivity|]. rewrite IH by (intros X; apply N; right; exact X).
      rewrite upd_other; [reflexivity|]. intros ->. apply N. left. reflexivity. }
    assert (K : forall l, NoDup l -> In b l -> fold_right (fun c a => rank (upd st b s c) + a) 0 l =
      fold_right (fun c a => rank (st c) + a) 0 l - rank (st b) + rank s).
    { induction l as [|c l IH]; intros N I; [destruct I|]. inversion N as [|? ? N1 N2]; subst. cbn. destruct I as [->|I].
      - rewrite upd_same, O by exact N1. lia.
      - rewrite IH by assumption. rewrite upd_other; [lia|]. intros ->. contradiction. }
    apply K; [apply seq_NoDup|apply in_seq; lia].
  Qed.
  Lemma total_nonneg st : (forall b, small (st b)) -> 0 <= total st.
  Proof.
    intros H. unfold total. induction (seq 0 n) as [|b l IH]; cbn; [lia|]. pose proof (rank_nonneg _ (H b)). lia.
  Qed.
  Lemma wpush_len q b : Z.of_nat (length (wpush q b)) <= Z.of_nat (length q) + 1.
  Proof. unfold wpush. destruct (existsb _ _); [lia|]. rewrite app_length. cbn. lia. Qed.
  Lemma measure_fold inc : small inc -> forall bs st q st' q', (forall b, In b bs -> (b < n)%nat) -> (forall b, small (st b)) ->
    fold_left (update_entry inc) bs (st, q) = (st', q') ->
    (forall b, small (st' b)) /\ total st' + Z.of_nat (length q') <= total st + Z.of_nat (length q).
  Proof.
    intros SI. induction bs as [|b0 bs IH]; intros st q st' q' R A H; cbn [fold_left] in H; [injection H as <- <-; split; [exact A|lia]|].
    unfold update_entry at 2 in H. destruct (mstate_eqb (join_state (st b0) inc) (st b0)) eqn:E.
    - eapply IH; eauto. intros b Hb. apply R. right. exact Hb.
    - assert (A' : forall b, small (upd st b0 (join_state (st b0) inc) b)).
      { intros b. destruct (Nat.eq_dec b b0) as [->|N]; [rewrite upd_same; apply small_join; auto|rewrite upd_other by exact N; apply A]. }
      destruct (IH _ _ _ _ (fun b Hb => R b (or_intror Hb)) A' H) as [S T]. split; [exact S|].
      rewrite total_upd in T by (apply R; left; reflexivity).
      assert (join_state (st b0) inc <> st b0) as N by (intros X; apply mstate_eqb_eq in X; congruence).
      pose proof (rank_join _ _ (A b0) SI N). pose proof (wpush_len q b0). lia.
  Qed.
  Lemma small_exit b bl s : nth_error blocks b = Some bl -> small s -> small (exit_state p bl s).
  Proof.
    intros Hb H k. unfold exit_state. cbn. destruct (ms_known s) as [k0|] eqn:K; [|discriminate]. intros E. injection E as <-.
    specialize (H _ K). pose proof (block_min_M _ _ Hb). lia.
  Qed.
  Definition measure (l : mloop) : Z := total (ml_states l) + rank (ml_dyn l) + Z.of_nat (length (ml_queue l)).
  Definition allsmall (l : mloop) : Prop := (forall b, small (ml_states l b)) /\ small (ml_dyn l).
  Lemma targets_lt t : In t (dyn_targets p) -> (t < n)%nat.
  Proof. unfold dyn_targets. intros H. apply filter_In in H as [H _]. apply in_seq in H. lia. Qed.
  Lemma step_measure bid l : allsmall l -> allsmall (ml_step p bid l) /\ measure (ml_step p bid l) <= measure l.
  Proof.
    intros [A B]. unfold ml_step, measure. destruct (nth_error blocks bid) as [b|] eqn:Hb; [|split; [split; auto|lia]].
    set (ex := exit_state p b (ml_states l bid)). assert (SE : small ex) by (eapply small_exit; eauto).
    destruct (ms_known ex); [|split; [split; auto|lia]].
    destruct (fold_left (update_entry ex) (bk_succs b) (ml_states l, ml_queue l)) as [st1 q1] eqn:F1.
    destruct (measure_fold ex SE _ _ _ _ _ (fun b' H => SUCCS _ _ _ Hb H) A F1) as [A1 T1].
    destruct (dyn_block p b); [|cbn [ml_states ml_queue ml_dyn]; unfold allsmall; cbn [ml_states ml_dyn]; split; [split; auto|lia]].
    destruct (mstate_eqb (join_state (ml_dyn l) ex) (ml_dyn l)) eqn:EQ; [cbn [ml_states ml_queue ml_dyn]; unfold allsmall; cbn [ml_states ml_dyn]; split; [split; auto|lia]|].
    destruct (fold_left (update_entry (join_state (ml_dyn l) ex)) (dyn_targets p) (st1, q1)) as [st2 q2] eqn:F2.
    assert (SJ : small (join_state (ml_dyn l) ex)) by (apply small_join; auto).
    destruct (measure_fold _ SJ _ _ _ _ _ (fun b' H => targets_lt b' H) A1 F2) as [A2 T2].
    cbn [ml_states ml_queue ml_dyn]. split; [split; auto|].
    assert (join_state (ml_dyn l) ex <> ml_dyn l) as N by (intros X; apply mstate_eqb_eq in X; congruence).
    pose proof (rank_join _ _ B SE N). lia.
  Qed.
  Lemma ml_run_total : forall fuel l, allsmall l -> measure l <= Z.of_nat fuel -> ml_run p fuel l <> None.
  Proof.
    induction fuel as [|f IH]; intros l A H; cbn [ml_run]; destruct (ml_queue l) as [|bid q] eqn:Q; try discriminate.
    - exfalso. unfold measure in H. rewrite Q in H. destruct A as [A B]. pose proof (total_nonneg _ A). pose proof (rank_nonneg _ B). cbn in H. lia.
    - assert (A' : allsmall (mkMl (ml_states l) q (ml_dyn l))) by exact A.
      destruct (step_measure bid _ A') as [S T]. apply IH; [exact S|].
      unfold measure in *. cbn in *. rewrite Q in H. cbn in H. lia.
  Qed.
  Lemma entry_states_total : exists fuel, entry_states p fuel <> None.
  Proof.
    exists (Z.to_nat (measure ml_init)). unfold entry_states. pose proof M_nonneg.
    assert (A : allsmall ml_init).
    { split; unfold ml_init; cbn [ml_states ml_dyn]; [|intros k Hk; discriminate]. intros b k. destruct (Nat.eq_dec b 0) as [->|N]; [rewrite upd_same|rewrite upd_other by exact N]; cbn; intros Hk; [injection Hk as <-; lia|discriminate]. }
    apply ml_run_total; [exact A|]. destruct A as [A B]. pose proof (total_nonneg _ A). pose proof (rank_nonneg _ B).
    rewrite Z2Nat.id; [lia|]. unfold measure. lia.
  Qed.
End Fix.

(** ** Sections of single instructions. *)
Lemma save_access_state l : forall k e sec k' e' sec', fold_left save_access l (k, e, sec) = (k', e', sec') ->
  walk l (mkMst (Some k) e) = mkMst (Some k') e'.
Proof.
  induction l as [|a l IH]; intros k e sec k' e' sec' H; cbn [fold_left] in H; [injection H as <- <- _; reflexivity|].
  unfold save_access at 2 in H. apply IH in H. exact H.
Qed.
Section Save.
  Variable p : bc.
  Definition prefix (s i : nat) : list access := flat_map (const_memory_accesses p) (seq s (i - s)).

  Lemma save_insts_other : forall l k e secs i, ~ In i l -> save_insts p l k e secs i = secs i.
  Proof.
    induction l as [|j l IH]; intros k e secs i N; cbn [save_insts]; [reflexivity|].
    destruct (fold_left save_access _ _) as [[k' e'] s']. rewrite IH by (intros X; apply N; right; exact X).
    apply upd_other. intros ->. apply N. left. reflexivity.
  Qed.
  Lemma save_insts_at : forall len s k e secs i, (s <= i < s + len)%nat ->
    exists k' e' k'' e'', walk (prefix s i) (mkMst (Some k) e) = mkMst (Some k') e' /\
      fold_left save_access (const_memory_accesses p i) (k', e', secs i) = (k'', e'', save_insts p (seq s len) k e secs i).
  Proof.
    induction len as [|len IH]; intros s k e secs i H; [lia|]. cbn [seq save_insts].
    destruct (fold_left save_access (const_memory_accesses p s) (k, e, secs s)) as [[k1 e1] s1] eqn:F.
    destruct (Nat.eq_dec i s) as [->|N].
    - exists k, e, k1, e1. split; [unfold prefix; rewrite Nat.sub_diag; reflexivity|]. rewrite save_insts_other by (intros X; apply in_seq in X; lia).
      rewrite upd_same. exact F.
    - destruct (IH (S s) k1 e1 (upd secs s s1) i ltac:(lia)) as (k' & e' & k'' & e'' & W & G). exists k', e', k'', e''. split.
      + unfold prefix in *. replace (i - s)%nat with (S (i - S s)) by lia. cbn [seq flat_map]. rewrite walk_app.
        rewrite (save_access_state _ _ _ _ _ _ _ F). exact W.
      + rewrite upd_other in G by exact N. exact G.
  Qed.
  Lemma save_fold_other st i : forall l secs, (forall b bl, In b l -> nth_error (b_blocks p) b = Some bl -> ~ (bk_start bl <= i < bk_end bl)%nat) ->
    fold_left (save_block p st) l secs i = secs i.
  Proof.
    induction l as [|b l IH]; intros secs H; cbn [fold_left]; [reflexivity|]. rewrite IH by (intros b' bl' Hb'; apply H; right; exact Hb').
    unfold save_block. destruct (ms_known (st b)); [|reflexivity]. destruct (nth_error (b_blocks p) b) as [bl|] eqn:Hb; [|reflexivity].
    apply save_insts_other. intros X. unfold blk_insts in X. apply in_seq in X. apply (H b bl (or_introl eq_refl) Hb). lia.
  Qed.
  (** The section of an instruction in block [b]: what the analysis knows there and the fold over its accesses. *)
  Lemma sections_at st b bl i k : nth_error (b_blocks p) b = Some bl -> (bk_start bl <= i < bk_end bl)%nat ->
    (forall b' bl', nth_error (b_blocks p) b' = Some bl' -> (bk_start bl' <= i < bk_end bl')%nat -> b' = b) ->
    ms_known (st b) = Some k ->
    exists k' e' k'' e'', walk (prefix (bk_start bl) i) (st b) = mkMst (Some k') e' /\
      fold_left save_access (const_memory_accesses p i) (k', e', no_section) =
      (k'', e'', fold_left (save_block p st) (seq 0 (length (b_blocks p))) (fun _ => no_section) i).
  Proof.
    intros Hb Hi U K. assert (Hl : (b < length (b_blocks p))%nat) by (eapply nth_lt; eauto).
    rewrite (seq_split 0 (length (b_blocks p)) b Hl). cbn [plus]. rewrite fold_left_app. cbn [fold_left].
    rewrite save_fold_other.
    2:{ intros b' bl' Hin Hb' Hr. apply in_seq in Hin. pose proof (U b' bl' Hb' Hr). lia. }
    unfold save_block at 1. rewrite K, Hb. unfold blk_insts.
    set (secs := fold_left (save_block p st) (seq 0 b) (fun _ => no_section)).
    destruct (save_insts_at (bk_end bl - bk_start bl) (bk_start bl) k (ms_exact (st b)) secs i ltac:(lia)) as (k' & e' & k'' & e'' & W & G).
    exists k', e', k'', e''. split; [rewrite <- W; f_equal; destruct (st b); cbn in *; congruence|].
    rewrite <- G. f_equal. f_equal. symmetry. apply save_fold_other.
    intros b' bl' Hin Hb' Hr. apply in_seq in Hin. pose proof (U b' bl' Hb' Hr). lia.
  Qed.
End Save.

(** Reading a section. *)
Definition skips (l : list access) (sec : msection) : bool :=
  (sec_required sec <=? sec_known sec) && forallb is_const l && match l with [] => false | _ => true end.
Lemma const_exact a n : is_const a = true -> desc a n -> exists x, exact_memory_size a = Some x /\ min_memory_size a = x /\ 0 <= x /\ (x < LIM -> x = n).
Proof.
  destruct a as [[o|] [l|]]; try discriminate. intros _ (_ & _ & D). exists (match l with 0 => 0 | _ => round_memory_size (sat_u64 (o + l)) end).
  assert (E : exact_memory_size (Some o, Some l) = Some (match l with 0 => 0 | _ => round_memory_size (sat_u64 (o + l)) end)) by (destruct l; reflexivity).
  split; [exact E|]. split; [destruct l; reflexivity|]. destruct (D _ E) as [D1 D2]. split; [exact D1|]. intros L. apply D2. auto.
Qed.
Lemma skip_covers l ns k e k' e' sec m : (length l <= 2)%nat -> Forall2 desc l ns -> 0 <= k ->
  fold_left save_access l (k, e, no_section) = (k', e', sec) -> skips l sec = true -> k <= m -> m < LIM -> fold_right Z.max 0 ns <= m.
Proof.
  intros L F K H S KM ML. unfold skips in S. apply andb_true_iff in S as [S S3]. apply andb_true_iff in S as [S1 S2].
  assert (M0 : 0 <= m) by lia.
  inversion F as [|a n l1 ns1 D1 F1]; subst; [discriminate|]. cbn [forallb] in S2. apply andb_true_iff in S2 as [C1 S2].
  inversion F1 as [|a2 n2 l2 ns2 D2 F2]; subst; destruct (const_exact _ _ C1 D1) as (x & X1 & X2 & X3 & X4).
  - cbn [fold_left] in H. unfold save_access in H. rewrite X1, X2 in H. injection H as _ _ <-. cbn [no_section sec_known sec_required sec_direct] in S1.
    cbn [fold_right].
    assert (Q : x <= k \/ x = 0) by (destruct (Z.eqb_spec k 0); destruct (Z.eqb_spec x 0); cbn in S1; lia).
    rewrite <- X4 by (unfold LIM in *; lia). lia.
  - cbn [forallb] in S2. apply andb_true_iff in S2 as [C2 S2].
    destruct (const_exact _ _ C2 D2) as (x2 & Y1 & Y2 & Y3 & Y4).
    assert (ns2 = []) as -> by (inversion F2; subst; [reflexivity|cbn in L; lia]). assert (l2 = []) as -> by (inversion F2; reflexivity).
    cbn [fold_left] in H. unfold save_access in H. rewrite X1, X2, Y1, Y2 in H. injection H as _ _ <-.
    cbn [fold_right].
    assert (Q : x <= k /\ x2 <= k \/ x = 0 /\ x2 = 0).
    { cbn [no_section sec_known sec_required sec_direct] in S1.
      destruct (Z.eqb_spec k 0) as [NK|NK]; destruct (Z.eqb_spec x 0) as [NX|NX]; cbn [negb orb andb sec_known sec_required sec_direct no_section Z.eqb] in S1;
        destruct (Z.eqb_spec (Z.max k x) 0) as [NM|NM]; destruct (Z.eqb_spec x2 0) as [NY|NY]; cbn [negb orb andb sec_known sec_required sec_direct no_section Z.eqb] in S1;
        repeat match type of S1 with context [if ?b then _ else _] => destruct b eqn:?; cbn [sec_known sec_required sec_direct] in S1 end; lia. }
    rewrite <- X4, <- Y4 by (unfold LIM in *; lia). lia.
Qed.
Lemma direct_exact a n k e k' e' sec m : desc a n -> 0 <= k ->
  fold_left save_access [a] (k, e, no_section) = (k', e', sec) -> sec_direct sec <> 0 -> (forall x, e = Some x -> m = x) -> m < LIM ->
  m < n /\ (n < LIM -> sec_direct sec = n).
Proof.
  intros (D0 & _ & D) K H N E ML. cbn [fold_left] in H. unfold save_access in H.
  cbn [no_section sec_known sec_required sec_direct Z.eqb andb] in H.
  apply (f_equal snd) in H. cbn [snd] in H. subst sec.
  destruct (negb (k =? 0) || _); [|cbn in N; congruence].
  destruct (exact_memory_size a) as [x|] eqn:X; [|cbn in N; congruence].
  destruct (D x eq_refl) as [X0 X1]. destruct e as [e0|]; [|cbn in N; congruence].
  pose proof (E e0 eq_refl) as Ee. destruct (Z.ltb_spec e0 x) as [L|L]; [|cbn in N; congruence].
  cbn [sec_direct] in *. split.
  - destruct (Z_lt_le_dec n LIM) as [G|G]; [rewrite <- X1; auto; lia|lia].
  - intros Hn. rewrite <- X1 by auto. lia.
Qed.

(** ** Executions. *)
(** The analysis takes the last topic of LOG1 .. LOG4 for the length of the data (finding F18); harmless
    when that topic is not known. *)
Definition topics_unknown (p : bc) : Prop :=
  forall i d c, nth_error (b_insts p) i = Some d -> 0xa1 <= d_op d <= 0xa4 ->
    const_operand p i (Z.to_nat (d_op d - 0xa0 + 1)) = Some c -> 2 ^ 64 <= c.

Lemma evm_ranges_other op : mem_operands op = 0 -> evm_ranges op = fun _ => [].
Proof.
  unfold mem_operands, evm_ranges.
  repeat match goal with |- context [match ?x with _ => _ end] => is_var x; destruct x end; try discriminate; reflexivity.
Qed.

Lemma mem_operands_in op : mem_operands op = 0 \/
  In op [0x20; 0x37; 0x39; 0x3c; 0x3e; 0x51; 0x52; 0x53; 0x5e; 0xa0; 0xa1; 0xa2; 0xa3; 0xa4; 0xf0; 0xf1; 0xf2; 0xf3; 0xf4; 0xf5; 0xfa; 0xfd].
Proof.
  unfold mem_operands.
  repeat match goal with |- context [match ?x with _ => _ end] => is_var x; destruct x end; try (left; reflexivity); right; cbn [In]; auto 30.
Qed.
Lemma evm_mem_zero op st : mem_operands op = 0 -> evm_mem op st = 0.
Proof. intros H. unfold evm_mem. rewrite (evm_ranges_other _ H). reflexivity. Qed.
Lemma no_mem op : op <= 0x1f \/ 0x40 <= op <= 0x50 \/ 0x54 <= op <= 0x5d \/ 0x5f <= op <= 0x9f \/ 0xe0 <= op <= 0xef -> mem_operands op = 0.
Proof. intros H. destruct (mem_operands_in op) as [E|I]; [exact E|]. cbn [In] in I. lia. Qed.

Section Exec.
  Context {Y : Type} (prog : list idata) (env : aenv)
          (sem : nat -> list Z -> Y -> option (list Z * Y)) (y0 : Y) (msize : Y -> Z).
  Notation const := (a_const env).
  Notation dest := (a_dest env).
  Notation step := (evm_step prog const dest sem).
  Notation R := (reach prog const dest sem y0).
  Hypothesis PO : prog_ok prog const dest.
  Hypothesis SO : sem_ok prog const sem (a_codelen env).
  Hypothesis MS : mem_sem prog sem msize y0.
  Notation cfg_ok := (cfg_ok prog const dest sem y0).
  Notation good := (good prog env sem y0).
  Let DEST := po_dest _ _ _ PO.
  Variable p : bc.
  Hypothesis OK : cfg_ok p.
  Hypothesis GOOD : good (b_snaps p).
  Hypothesis TOPICS : topics_unknown p.
  Let SK := pr_skel _ _ _ _ _ _ (co_pre _ _ _ _ _ _ OK).

  Lemma op64 i st y k v : R i st y -> (i < length prog)%nat -> operand64 p i k = Some v -> (k < length st)%nat -> nth k st 0 = v.
  Proof.
    intros HR Hi H Hk. unfold operand64 in H. destruct (const_operand p i k) as [c|] eqn:C; [|discriminate].
    destruct (c <? U64); [|discriminate]. injection H as <-.
    pose proof (good_operand prog env sem y0 (b_snaps p) p i st y k c GOOD HR Hi eq_refl C Hk) as E.
    apply nth_error_nth. exact E.
  Qed.
  Lemma nth_nonneg st k : Forall is_word st -> 0 <= nth k st 0.
  Proof.
    intros F. destruct (nth_in_or_default k st 0) as [I|E]; [|rewrite E; lia].
    rewrite Forall_forall in F. destruct (F _ I). lia.
  Qed.

  Lemma inst_desc i st y d : R i st y -> nth_error (b_insts p) i = Some d -> f_disabled (d_flags d) || f_unknown (d_flags d) = false ->
    (Z.to_nat (mem_operands (d_op d)) <= length st)%nat ->
    exists ns, Forall2 desc (const_memory_accesses p i) ns /\ fold_right Z.max 0 ns = evm_mem (d_op d) st /\ (length ns <= 2)%nat.
  Proof.
    intros HR Hn Hf Hl.
    assert (Hi : (i < length prog)%nat) by (destruct SK as [L _]; apply nth_lt in Hn; congruence).
    pose proof (reach_words prog env sem y0 PO SO i st y HR) as W.
    unfold const_memory_accesses. rewrite Hn, Hf.
    assert (O : forall k, (k < length st)%nat -> forall x, operand64 p i k = Some x -> x = nth k st 0)
      by (intros k Hk x Hx; symmetry; eapply op64; eauto).
    assert (NN : forall k, 0 <= nth k st 0) by (intros k; apply nth_nonneg, W).
    assert (C32 : forall c x : Z, Some c = Some x -> x = c) by (intros c x E; injection E; auto).
    assert (one : forall o l a b, desc (o, l) (range_size (a, b)) ->
      exists ns, Forall2 desc [(o, l)] ns /\ fold_right Z.max 0 ns = fold_right Z.max 0 [range_size (a, b)] /\ (length ns <= 2)%nat)
      by (intros o l a b D; exists [range_size (a, b)]; split; [constructor; [exact D|constructor]|split; [reflexivity|cbn; lia]]).
    assert (two : forall o l a b o' l' a' b', desc (o, l) (range_size (a, b)) -> desc (o', l') (range_size (a', b')) ->
      exists ns, Forall2 desc [(o, l); (o', l')] ns /\ fold_right Z.max 0 ns = fold_right Z.max 0 [range_size (a, b); range_size (a', b')] /\ (length ns <= 2)%nat)
      by (intros o l a b o' l' a' b' D D'; exists [range_size (a, b); range_size (a', b')]; split; [constructor; [exact D|constructor; [exact D'|constructor]]|split; [reflexivity|cbn; lia]]).
    assert (T : 0xa1 <= d_op d <= 0xa4 -> operand64 p i (Z.to_nat (d_op d - 0xa0 + 1)) = None).
    { intros H. unfold operand64. destruct (const_operand p i _) as [c|] eqn:C; [|reflexivity].
      specialize (TOPICS i d c Hn H C). replace (c <? U64) with false by (unfold U64; lia). reflexivity. }
    revert Hl T. generalize (d_op d) as op. intros op Hl T. unfold evm_mem.
    Ltac range O NN C32 := apply desc_range; [try apply NN; lia|try apply NN; lia|first [apply O; lia|apply C32]|first [apply O; lia|apply C32]].
    repeat match goal with
    | |- context [if ?b then _ else _] => destruct b eqn:?
    end;
    repeat match goal with
    | X : (_ || _) = true |- _ => apply orb_true_iff in X as [X|X]
    | X : (op =? ?c) = true |- _ => apply Z.eqb_eq in X; subst op
    end;
    try (cbn [mem_operands] in Hl; cbn [evm_ranges map]; apply one; range O NN C32; fail);
    try (cbn [mem_operands] in Hl; cbn [evm_ranges map]; apply two; range O NN C32; fail);
    try (cbn [mem_operands] in Hl; cbn [evm_ranges map]; match type of T with _ -> operand64 p i ?k = None => let v := eval vm_compute in k in change k with v in T end; rewrite T by lia; apply one, desc_unknown, range_size_nonneg; apply NN; fail).
    - (* MCOPY *)
      cbn [mem_operands] in Hl. cbn [evm_ranges map]. exists [range_size (Z.max (nth 0 st 0) (nth 1 st 0), nth 2 st 0)].
      split; [constructor; [|constructor]|].
      + apply desc_range; [pose proof (NN 0%nat); lia|apply NN| |apply O; lia].
        intros x Hx. unfold zip_max in Hx. destruct (operand64 p i 0) as [a|] eqn:E0; [|discriminate].
        destruct (operand64 p i 1) as [b|] eqn:E1; [|discriminate]. injection Hx as <-.
        rewrite (O 0%nat ltac:(lia) _ E0), (O 1%nat ltac:(lia) _ E1). reflexivity.
      + cbn [fold_right length]. rewrite <- range_max by apply NN. split; lia.
    - exists []. split; [constructor|]. rewrite evm_ranges_other; [split; [reflexivity|cbn; lia]|].
      unfold mem_operands. clear -Heqb Heqb0 Heqb1 Heqb2 Heqb3 Heqb4 Heqb5 Heqb6 Heqb7 Heqb8 Heqb9 Heqb10 Heqb11.
      repeat match goal with |- context [match ?x with _ => _ end] => is_var x; destruct x end; try reflexivity; cbn in *; discriminate.
  Qed.

  Lemma exec_y i d st y j st' y' : evm_exec const dest sem i d st y = Some (j, st', y') ->
    y' = y /\ mem_operands (d_op d) = 0 \/
    (Z.to_nat (fst (d_io d)) <= length st)%nat /\ exists outs, sem i (firstn (Z.to_nat (fst (d_io d))) st) y = Some (outs, y').
  Proof.
    unfold evm_exec. set (op := d_op d). destruct (f_disabled (d_flags d) || f_unknown (d_flags d)); [discriminate|]. intros H.
    destruct ((0x5f <=? op) && (op <=? 0x7f)) eqn:E1; [left; split; [congruence|apply no_mem; lia]|].
    destruct (op =? 0x50) eqn:E2; [left; destruct st; [discriminate|]; split; [congruence|apply no_mem; lia]|].
    destruct ((0x80 <=? op) && (op <=? 0x8f)) eqn:E3; [left; destruct (nth_error _ _); [|discriminate]; split; [congruence|apply no_mem; lia]|].
    destruct ((0x90 <=? op) && (op <=? 0x9f)) eqn:E4; [left; apply keep_some in H as (s & _ & H); split; [congruence|apply no_mem; lia]|].
    destruct (op =? 0xe6) eqn:E5.
    { left. destruct (eip_single _); [|discriminate]. destruct (nth_error _ _); [|discriminate]. split; [congruence|apply no_mem; lia]. }
    destruct (op =? 0xe7) eqn:E6; [left; destruct (eip_single _); [|discriminate]; apply keep_some in H as (s & _ & H); split; [congruence|apply no_mem; lia]|].
    destruct (op =? 0xe8) eqn:E7; [left; destruct (eip_pair _) as [[? ?]|]; [|discriminate]; apply keep_some in H as (s & _ & H); split; [congruence|apply no_mem; lia]|].
    destruct (op =? 0x56) eqn:E8; [left; destruct st as [|t s]; [discriminate|]; destruct (dest t); [|discriminate]; split; [congruence|apply no_mem; lia]|].
    destruct (op =? 0x57) eqn:E9.
    { left. destruct st as [|t [|c s]]; [discriminate..|]. destruct (c =? 0); [|destruct (dest t); [|discriminate]]; (split; [congruence|apply no_mem; lia]). }
    destruct (existsb _ _) eqn:E10; [discriminate|]. right.
    destruct (Nat.ltb_spec (length st) (Z.to_nat (fst (d_io d)))) as [|L]; [discriminate|]. split; [exact L|].
    destruct (sem _ _ _) as [[o y1]|]; [|discriminate]. exists o. congruence.
  Qed.
  Lemma fold_max_nn l : 0 <= fold_right Z.max 0 l.
  Proof. induction l; cbn; lia. Qed.

  Lemma step_mem i st y j st' y' d : nth_error (b_insts p) i = Some d -> step i st y = Some (j, st', y') ->
    f_disabled (d_flags d) || f_unknown (d_flags d) = false /\ (Z.to_nat (mem_operands (d_op d)) <= length st)%nat /\
    (0 <= msize y < LIM -> msize y' = Z.max (msize y) (evm_mem (d_op d) st) /\ 0 <= msize y' < LIM).
  Proof.
    intros Hn Hs. destruct (skel_orig _ _ _ _ SK Hn) as (d0 & H0 & (So & Sio & Sd & Su & _)).
    destruct (step_cases prog const dest sem _ _ _ _ _ _ _ H0 Hs) as (Hf & _ & He).
    rewrite So, Sd, Su. split; [exact Hf|].
    destruct (exec_y _ _ _ _ _ _ _ He) as [[-> E]|(L & outs & E)].
    - rewrite E, (evm_mem_zero _ _ E). split; [cbn; lia|]. lia.
    - pose proof (mo_io _ _ _ _ MS _ _ H0 Hf) as IO. destruct (mo_step _ _ _ _ MS _ _ _ _ _ _ H0 E) as [M1 M2].
      assert (0 <= fst (d_io d0)) by (destruct (po_io _ _ _ PO i d0 H0 Hf); assumption).
      rewrite evm_mem_firstn in M1 by lia. split; [lia|]. unfold LIM in *. lia.
  Qed.
  Lemma msize_range i st y : R i st y -> 0 <= msize y < LIM.
  Proof.
    intros HR. induction HR as [|i st y j st' y' HR IH Hs].
    - rewrite (mo_start _ _ _ _ MS). unfold LIM. lia.
    - assert (Hd : exists d, nth_error (b_insts p) i = Some d).
      { unfold evm_step in Hs. destruct (nth_error prog i) eqn:E0; [|discriminate]. destruct SK as [L _]. apply nth_some. apply nth_lt in E0. congruence. }
      destruct Hd as [d Hd]. destruct (step_mem _ _ _ _ _ _ _ Hd Hs) as (_ & _ & G). apply G, IH.
  Qed.

  Variables (fuel : nat) (est : nat -> mstate).
  Hypothesis FIX : entry_states p fuel = Some est.
  (** What the analysis knows before instruction [i] is true in every execution. *)
  Lemma known_true i st y d : R i st y -> nth_error (b_insts p) i = Some d ->
    exists b bl, nth_error (b_blocks p) b = Some bl /\ (bk_start bl <= i < bk_end bl)%nat /\
      holds (walk (prefix p (bk_start bl) i) (est b)) (msize y).
  Proof.
    intros HR. revert d. destruct (entry_states_spec p fuel est FIX) as (Z0 & _ & ES).
    induction HR as [|i st y j st' y' HR IH Hs]; intros dj Hj.
    - destruct (block_zero _ _ _ _ _ p OK _ Hj) as (bl & Hb & E). exists 0%nat, bl. split; [exact Hb|].
      pose proof (block_bounds _ _ _ _ _ p OK _ _ Hb). split; [lia|]. rewrite E. unfold prefix. cbn [Nat.sub seq flat_map].
      rewrite (mo_start _ _ _ _ MS). exact Z0.
    - assert (Hd : exists d, nth_error (b_insts p) i = Some d).
      { unfold evm_step in Hs. destruct (nth_error prog i) eqn:E0; [|discriminate]. destruct SK as [L _]. apply nth_some. apply nth_lt in E0. congruence. }
      destruct Hd as [d Hn]. destruct (IH d Hn) as (b & bl & Hb & Hr & H).
      destruct (step_mem _ _ _ _ _ _ _ Hn Hs) as (Hf & Hl & G). destruct (G (msize_range _ _ _ HR)) as [G1 G2].
      destruct (inst_desc i st y d HR Hn Hf Hl) as (ns & D & En & _).
      assert (HS : holds (walk (prefix p (bk_start bl) (S i)) (est b)) (msize y')).
      { unfold prefix. replace (S i - bk_start bl)%nat with (S (i - bk_start bl)) by lia.
        rewrite seq_S, flat_map_app, walk_app. cbn [flat_map]. rewrite app_nil_r.
        replace (bk_start bl + (i - bk_start bl))%nat with i by lia. rewrite G1, <- En.
        apply walk_holds; [exact D|exact H|rewrite En, <- G1; lia|apply (msize_range _ _ _ HR)]. }
      destruct (step_block _ _ _ _ _ DEST p OK _ _ _ _ _ _ _ _ _ HR Hs Hb Hr Hj) as (d1 & Hd1 & Hd & Hc).
      assert (d1 = d) by congruence. subst d1.
      assert (KN : ms_known (est b) <> None).
      { destruct HS as (k & K & _). intros X. revert K. clear -X. revert X. generalize (est b). generalize (prefix p (bk_start bl) (S i)).
        induction l as [|a l IH]; intros s X K; cbn in K; [congruence|]. eapply IH; [|exact K]. unfold acc_step. cbn. rewrite X. reflexivity. }
      destruct (ES b bl Hb KN) as [S1 S2].
      destruct Hc as [(He & -> & _)|(He & b' & bl' & Hb' & Es & Hc)].
      + exists b, bl. split; [exact Hb|]. split; [lia|exact HS].
      + exists b', bl'. split; [exact Hb'|]. pose proof (block_bounds _ _ _ _ _ p OK _ _ Hb'). split; [lia|].
        rewrite Es. unfold prefix. rewrite Nat.sub_diag. cbn [seq flat_map walk fold_left].
        assert (WB : prefix p (bk_start bl) (S i) = block_accesses p bl) by (unfold prefix, block_accesses, blk_insts; rewrite He; reflexivity).
        rewrite WB in HS.
        destruct Hc as [[_ Hin]|(Jd & Hjmp & Hst & _ & _)]; [apply (S1 b' Hin), HS|].
        destruct (f_static (d_flags d)) eqn:Fs; [apply (S1 b' (Hst eq_refl)), HS|].
        assert (Tm : terminator bl = i) by (unfold terminator; lia).
        assert (DY : b_dyn p = true).
        { eapply (fr_dyn p (co_fresh _ _ _ _ _ _ OK) i d Hn). unfold unresolved. rewrite Hjmp, Fs, Hd. reflexivity. }
        refine (S2 _ b' _ _ HS).
        * unfold dyn_block. rewrite DY, Tm, Hn, Hjmp. unfold is_static_jump. rewrite Fs.
          destruct (f_invalid (d_flags d)) eqn:Fi; [|rewrite Hjmp; reflexivity].
          destruct (pr_targets _ _ _ _ _ _ (co_pre _ _ _ _ _ _ OK) _ _ Hn) as (_ & _ & X). rewrite (X Fi) in Fs. discriminate.
        * unfold dyn_targets. apply filter_In. split; [apply in_seq; apply nth_lt in Hb'; lia|].
          rewrite Hb'. unfold dyn_target. rewrite DY, Es, Hj. unfold is_reachable_jumpdest. rewrite Jd. reflexivity.
  Qed.

  Lemma section_at i st y d secs : R i st y -> nth_error (b_insts p) i = Some d -> memory_sections p fuel = Some secs ->
    exists k e k' e', 0 <= k <= msize y /\ (forall x, e = Some x -> msize y = x) /\
      fold_left save_access (const_memory_accesses p i) (k, e, no_section) = (k', e', secs i).
  Proof.
    intros HR Hn Hs. unfold memory_sections in Hs. rewrite FIX in Hs. cbn [option_map] in Hs. injection Hs as <-.
    destruct (known_true i st y d HR Hn) as (b & bl & Hb & Hr & H).
    destruct (entry_states_spec p fuel est FIX) as (_ & NNs & _).
    destruct (ms_known (est b)) as [k0|] eqn:K0.
    - destruct (sections_at p est b bl i k0 Hb Hr) as (k & e & k' & e' & W & F); [|exact K0|].
      { intros b' bl' Hb' Hr'. destruct (block_unique _ _ _ _ _ p OK _ _ _ _ i Hb' Hb Hr' Hr). assumption. }
      exists k, e, k', e'. rewrite W in H. destruct H as (k1 & K1 & L & E). cbn in K1, E. injection K1 as <-.
      split; [|split; [exact E|exact F]]. split; [|exact L].
      (* known sizes are not negative *)
      assert (G : forall l s, (forall z, ms_known s = Some z -> 0 <= z) -> forall z, ms_known (walk l s) = Some z -> 0 <= z).
      { induction l as [|a l IH]; intros s Hz z X; [apply Hz, X|]. eapply (IH (acc_step s a)); [|exact X].
        intros z0. unfold acc_step. cbn. destruct (ms_known s) as [q|]; [|discriminate]. intros Y0. injection Y0 as <-. specialize (Hz q eq_refl). lia. }
      apply (G (prefix p (bk_start bl) i) (est b)); [apply NNs|rewrite W; reflexivity].
    - exfalso. destruct H as (k & K & _). revert K. clear -K0. revert K0. generalize (est b). generalize (prefix p (bk_start bl) i).
      induction l as [|a l IH]; intros s X K; cbn in K; [congruence|]. eapply IH; [|exact K]. unfold acc_step. cbn. rewrite X. reflexivity.
  Qed.
  Lemma skip_ok i st y d secs : R i st y -> nth_error (b_insts p) i = Some d -> memory_sections p fuel = Some secs ->
    (Z.to_nat (mem_operands (d_op d)) <= length st)%nat -> can_skip p secs i = true -> evm_mem (d_op d) st <= msize y.
  Proof.
    intros HR Hn Hs Hl Hk. destruct (section_at i st y d secs HR Hn Hs) as (k & e & k' & e' & K & E & F).
    assert (Hf : f_disabled (d_flags d) || f_unknown (d_flags d) = false).
    { destruct (f_disabled (d_flags d) || f_unknown (d_flags d)) eqn:Ef; [|reflexivity]. unfold can_skip, const_memory_accesses in Hk.
      rewrite Hn, Ef in Hk. rewrite andb_false_r in Hk. discriminate. }
    destruct (inst_desc i st y d HR Hn Hf Hl) as (ns & D & En & L2). rewrite <- En.
    eapply (skip_covers (const_memory_accesses p i) ns k e k' e' (secs i)); eauto; try lia; try apply (msize_range _ _ _ HR).
    assert (length (const_memory_accesses p i) = length ns) as -> by (clear -D; induction D; cbn; congruence). exact L2.
  Qed.
  Lemma direct_ok i st y d secs : R i st y -> nth_error (b_insts p) i = Some d -> memory_sections p fuel = Some secs ->
    (Z.to_nat (mem_operands (d_op d)) <= length st)%nat -> 0x51 <= d_op d <= 0x53 -> sec_direct (secs i) <> 0 ->
    msize y < evm_mem (d_op d) st /\ (evm_mem (d_op d) st < LIM -> sec_direct (secs i) = evm_mem (d_op d) st).
  Proof.
    intros HR Hn Hs Hl Ho Hk. destruct (section_at i st y d secs HR Hn Hs) as (k & e & k' & e' & K & E & F).
    assert (Hf : f_disabled (d_flags d) || f_unknown (d_flags d) = false).
    { destruct (f_disabled (d_flags d) || f_unknown (d_flags d)) eqn:Ef; [|reflexivity]. unfold const_memory_accesses in F.
      rewrite Hn, Ef in F. cbn in F. injection F as _ _ F. rewrite <- F in Hk. cbn in Hk. congruence. }
    destruct (inst_desc i st y d HR Hn Hf Hl) as (ns & D & En & L2).
    assert (ONE : exists a, const_memory_accesses p i = [a]).
    { unfold const_memory_accesses. rewrite Hn, Hf. assert (C : d_op d = 0x51 \/ d_op d = 0x52 \/ d_op d = 0x53) by lia.
      destruct C as [-> |[-> | ->]]; eexists; reflexivity. }
    destruct ONE as [a Ea]. rewrite Ea in *. inversion D as [|? n ? ? D1 D2]; subst. inversion D2; subst. cbn [fold_right] in En.
    destruct D1 as (P0 & D1). rewrite <- En. replace (Z.max n 0) with n by lia.
    eapply (direct_exact a n k e k' e' (secs i)); eauto; [split; assumption|lia|apply (msize_range _ _ _ HR)].
  Qed.
End Exec.
