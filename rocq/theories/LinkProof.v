(** From the section pass to the hypotheses of the virtual-stack and dead-store theorems. *)
From Verif Require Import OpcodeSpec SectionsModel SectionsProof SummarySpec DseProof StructProof CfgProof ProgramProof FlowSpec BlockProof SummaryProof VStackProof DseProps.
From Coq Require Import ZifyBool.
Import ListNotations.
Open Scope Z_scope.

Lemma firstn_snoc {A} (l : list A) k x : nth_error l k = Some x -> firstn (S k) l = firstn k l ++ [x].
Proof. revert k. induction l as [|a l IH]; intros [|k] H; cbn in *; try discriminate; [congruence|]. f_equal. apply IH, H. Qed.

Lemma wf_ranges_sep rs : forall lo hi a b ra rb, wf_ranges rs lo hi -> nth_error rs a = Some ra -> nth_error rs b = Some rb -> (a < b)%nat -> (snd ra <= fst rb)%nat.
Proof.
  induction rs as [|[s e] rs IH]; intros lo hi a b ra rb WF Ha Hb L; [destruct a; discriminate|]. cbn [wf_ranges] in WF.
  destruct b as [|b]; [lia|]. destruct a as [|a].
  - cbn in Ha, Hb. injection Ha as <-. destruct WF as (_ & _ & _ & WF). destruct (wf_ranges_nth _ _ _ _ _ WF Hb). cbn. lia.
  - cbn in Ha, Hb. destruct WF as (_ & _ & _ & WF). eapply IH; eauto. lia.
Qed.

(** The pass changes neither opcodes nor dead marks. *)
Lemma sections_same dyn istanbul extra l : Forall io_ok l -> forall k d d', nth_error l k = Some d -> nth_error (construct_sections dyn istanbul extra l) k = Some d' ->
  d_op d' = d_op d /\ is_dead d' = is_dead d.
Proof.
  intros IO k d d' H H'. rewrite construct_sections_go in H' by exact IO. rewrite go_nth, H in H'. destruct (is_dead d) eqn:D; [injection H' as <-; auto|].
  destruct (_ || _); injection H' as <-; [|auto]. unfold mark. destruct (_ =? 0); split; try reflexivity; exact D.
Qed.
Lemma sections_op dyn istanbul extra l (IO : Forall io_ok l) k d d' : nth_error l k = Some d -> nth_error (construct_sections dyn istanbul extra l) k = Some d' -> d_op d' = d_op d.
Proof. intros H H'. exact (proj1 (sections_same dyn istanbul extra l IO k d d' H H')). Qed.
Lemma sections_dead dyn istanbul extra l (IO : Forall io_ok l) k d d' : nth_error l k = Some d -> nth_error (construct_sections dyn istanbul extra l) k = Some d' -> is_dead d' = is_dead d.
Proof. intros H H'. exact (proj2 (sections_same dyn istanbul extra l IO k d d' H H')). Qed.
(** Ranges depend on few fields. *)
Lemma build_ext dyn l l' : (forall i, is_leader dyn l' i = is_leader dyn l i) -> forall q q' i cur pending,
  Forall2 (fun a b => is_dead b = is_dead a) q q' -> build dyn l' i q' cur pending = build dyn l i q cur pending.
Proof.
  intros HL q q' i cur pending F. revert i cur pending. induction F as [|a b q q' E F IH]; intros i cur pending; cbn [build]; [reflexivity|].
  rewrite E, HL. destruct (is_dead a); [apply IH|]. destruct cur as [[s e]|]; [destruct (is_leader dyn l i || pending); [f_equal|]|]; apply IH.
Qed.
Lemma ranges_ext dyn l l' : length l' = length l ->
  (forall i d', nth_error l' i = Some d' -> exists d, nth_error l i = Some d /\ is_dead d' = is_dead d /\ is_branching d' = is_branching d /\ is_diverging d' = is_diverging d /\
     is_reachable_jumpdest dyn d' = is_reachable_jumpdest dyn d) -> ranges dyn l' = ranges dyn l.
Proof.
  intros LL H. unfold ranges. apply build_ext.
  - intros i. assert (G : forall j, match nth_error l' j, nth_error l j with Some a, Some b => is_dead a = is_dead b /\ is_branching a = is_branching b /\ is_diverging a = is_diverging b /\ is_reachable_jumpdest dyn a = is_reachable_jumpdest dyn b | None, None => True | _, _ => False end).
    { intros j. destruct (nth_error l' j) as [a|] eqn:Ha.
      - destruct (H j a Ha) as (b & -> & X). exact X.
      - apply nth_error_None in Ha. destruct (nth_error l j) eqn:Hb; [|exact Logic.I]. assert ((j < length l)%nat) by (apply nth_error_Some; congruence). lia. }
    unfold is_leader. f_equal.
    + destruct i as [|k]; [reflexivity|]. cbn [leader_before]. specialize (G k). destruct (nth_error l' k), (nth_error l k); try contradiction; [|reflexivity].
      destruct G as (-> & -> & -> & _). reflexivity.
    + specialize (G i). destruct (nth_error l' i), (nth_error l i); try contradiction; [|reflexivity]. apply G.
  - revert l LL H. induction l' as [|a l' IH]; intros [|b l] LL H; try discriminate; [constructor|]. constructor.
    + destruct (H 0%nat a eq_refl) as (d & E & X & _). injection E as <-. exact X.
    + apply IH; [cbn in LL; lia|]. intros i d' Hi. destruct (H (S i) d' Hi) as (d & E & X). exists d. auto.
Qed.

Section Link.
  Context {W : Type}.
  Variables (dyn istanbul : bool) (extra : nat -> Z) (l : list idata).
  Notation P := (construct_sections dyn istanbul extra l).
  Hypothesis IO : Forall io_ok l.
  Hypothesis FRESH : forall i d, nth_error l i = Some d -> f_head (d_flags d) = false.
  Hypothesis FITS : forall k, entry dyn istanbul l k -> deepest (sect dyn istanbul true (skipn k l)) 0 < 2 ^ 16 /\ highest (sect dyn istanbul true (skipn k l)) 0 < 2 ^ 15.

  (** [vs] are the instructions from [k] on as the code generator reads them off [P]. *)
  Fixpoint reads (k : nat) (vs : list (vinst W)) : Prop :=
    match vs with
    | [] => True
    | v :: vs' => (exists d d', nth_error l k = Some d /\ is_dead d = false /\ nth_error P k = Some d' /\ headed d' v /\
                                Z.of_nat (vi_in v) = fst (d_io d) /\ Z.of_nat (vi_out v) = snd (d_io d)) /\ reads (S k) vs'
    end.
  Definition inside (k : nat) (slo inp gr : Z) : Prop :=
    forall d, nth_error l k = Some d -> is_dead d = false ->
    entry dyn istanbul l k \/
    (deepest (sect dyn istanbul false (skipn k l)) slo <= inp /\ highest (sect dyn istanbul false (skipn k l)) slo <= gr).

  Lemma head_iff k d' : nth_error P k = Some d' -> (f_head (d_flags d') = true <-> entry dyn istanbul l k).
  Proof.
    intros H. destruct (entry_dec dyn istanbul l k) as [E|E].
    - split; [auto|]. intros _. exact (proj1 (head_exact dyn istanbul extra l k d' IO E H)).
    - split; [|tauto]. intros X. destruct (nth_error l k) as [d|] eqn:Hd.
      + rewrite (nonhead dyn istanbul extra l k d IO E Hd) in H. injection H as <-. rewrite (FRESH k d Hd) in X. discriminate.
      + rewrite construct_sections_go in H by exact IO. rewrite go_nth, Hd in H. discriminate.
  Qed.
  Lemma inside_next k d slo inp gr : nth_error l k = Some d -> is_dead d = false ->
    deepest (sect dyn istanbul true (skipn k l)) slo <= inp -> highest (sect dyn istanbul true (skipn k l)) slo <= gr ->
    fst (d_io d) - slo <= inp /\ slo - fst (d_io d) + snd (d_io d) <= gr /\ inside (S k) (slo - fst (d_io d) + snd (d_io d)) inp gr.
  Proof.
    intros Hd D A B. rewrite (SectionsProof.skipn_cons l k d Hd) in A, B. rewrite sect_live in A, B by exact D.
    destruct (d_io d) as [i o] eqn:E. cbn [deepest highest fst snd] in *. split; [lia|]. split; [lia|].
    intros d1 H1 D1. rewrite sect_stops. destruct (ends_section istanbul d) eqn:ES.
    - left. exists d1. split; [exact H1|]. split; [exact D1|]. right. rewrite (prev_live_S l k d Hd D). exact ES.
    - cbn [orb] in A, B. right. destruct (stops dyn (skipn (S k) l)); cbn [deepest highest] in *; lia.
  Qed.
  Lemma reads_fits vs : forall k slo inp gr, reads k vs -> inside k slo inp gr -> fits slo inp gr vs.
  Proof.
    induction vs as [|v vs IH]; intros k slo inp gr R IN; cbn [fits]; [exact Logic.I|].
    destruct R as ((d & d' & Hd & D & Hd' & HV & V1 & V2) & R). unfold headed in HV. rewrite HV.
    assert (X : let '(slo, inp, gr) := match (if f_head (d_flags d') then Some (Z.to_nat (fst (d_stack_section d')), Z.to_nat (snd (d_stack_section d'))) else None) with
                  Some (a, b) => (0, Z.of_nat a, Z.of_nat b) | None => (slo, inp, gr) end in
                deepest (sect dyn istanbul true (skipn k l)) slo <= inp /\ highest (sect dyn istanbul true (skipn k l)) slo <= gr).
    { destruct (f_head (d_flags d')) eqn:FH.
      - apply (head_iff k d' Hd') in FH. destruct (head_exact dyn istanbul extra l k d' IO FH Hd') as (_ & ->). cbn [fst snd].
        destruct (FITS k FH) as (F1 & F2). pose proof (deepest_nonneg (sect dyn istanbul true (skipn k l)) 0). pose proof (highest_nonneg (sect dyn istanbul true (skipn k l)) 0). lia.
      - assert (NE : ~ entry dyn istanbul l k) by (intros E; apply (head_iff k d' Hd') in E; congruence).
        destruct (IN d Hd D) as [E|E]; [contradiction|]. rewrite sect_stops in E.
        rewrite (SectionsProof.skipn_cons l k d Hd) in *. rewrite stops_cons_live in E by exact D.
        destruct (is_reachable_jumpdest dyn d) eqn:J; [|exact E]. exfalso. apply NE. exists d. auto. }
    destruct (match (if f_head (d_flags d') then _ else _) with Some _ => _ | None => _ end) as [[slo' inp'] gr'].
    destruct X as (X1 & X2). destruct (inside_next k d slo' inp' gr' Hd D X1 X2) as (Y1 & Y2 & Y3). rewrite V1, V2.
    split; [lia|]. split; [lia|]. exact (IH (S k) _ _ _ R Y3).
  Qed.
  Lemma reads_starts v vs k : reads k (v :: vs) -> entry dyn istanbul l k -> starts_head (v :: vs).
  Proof.
    intros ((d & d' & Hd & D & Hd' & HV & _) & _) E. unfold starts_head, is_head. rewrite HV, (proj2 (head_iff k d' Hd') E). reflexivity.
  Qed.

  (** Inside a block: not a leader, so a head only after an instruction that ends a section. *)
  Lemma ends_here_of d : ends_section istanbul d = true -> ends_here d = true.
  Proof. unfold ends_section, ends_here, requires_gasleft, OP_GAS, OP_SSTORE. destruct istanbul; intros H; lia. Qed.
  Definition no_lead (k n : nat) : Prop := forall j, (k < j < k + n)%nat -> is_leader dyn l j = false.
  Lemma reads_heads vs : forall k (its : list ditem), reads k vs -> no_lead k (length vs) ->
    (forall j t, nth_error its j = Some t -> exists d, nth_error l (k + j) = Some d /\ ends_here (it_d t) = ends_here d) -> heads_ok its vs.
  Proof.
    induction vs as [|v vs IH]; intros k its R NL HI; [destruct its; exact Logic.I|]. destruct its as [|t its]; [exact Logic.I|].
    cbn [heads_ok]. destruct vs as [|v' vs]; [exact Logic.I|]. destruct R as ((d & d' & Hd & D & Hd' & HV & _) & R).
    split.
    - intros IH'. destruct (HI 0%nat t eq_refl) as (d0 & E0 & ->). rewrite Nat.add_0_r, Hd in E0. injection E0 as <-.
      destruct R as ((d1 & d1' & H1 & D1 & H1' & HV1 & _) & _). unfold is_head in IH'. rewrite HV1 in IH'.
      destruct (f_head (d_flags d1')) eqn:FH; [|discriminate]. apply (head_iff _ _ H1') in FH. destruct FH as (d2 & H2 & _ & [J|J]).
      + specialize (NL (S k) ltac:(cbn [length]; lia)). unfold is_leader in NL. rewrite H2, J, orb_true_r in NL. discriminate.
      + rewrite (prev_live_S l k d Hd D) in J. apply ends_here_of, J.
    - apply (IH (S k) its R).
      + intros j Hj. apply NL. cbn [length] in *. lia.
      + intros j t' Hj. specialize (HI (S j) t' Hj). replace (k + S j)%nat with (S k + j)%nat in HI by lia. exact HI.
  Qed.
  Lemma reads_ends vs : forall k, reads k vs ->
    (forall j v, nth_error vs j = Some v -> exists d, nth_error l (k + j) = Some d /\ leaves_by_opcode d v) -> ends_ok (map unmark vs) true.
  Proof.
    induction vs as [|v vs IH]; intros k R H; cbn [map ends_ok]; [exact Logic.I|]. destruct R as ((d & d' & Hd & D & Hd' & HV & _) & R).
    split; [|split].
    - intros LV. destruct vs as [|v' vs]; [reflexivity|]. cbn [map]. destruct R as ((d1 & d1' & H1 & D1 & H1' & HV1 & _) & _).
      unfold is_head. cbn [unmark vi_head]. rewrite HV1, (proj2 (head_iff _ _ H1')); [reflexivity|]. exists d1. split; [exact H1|]. split; [exact D1|]. right.
      rewrite (prev_live_S l k d Hd D). destruct (H 0%nat v eq_refl) as (d0 & E0 & LO). rewrite Nat.add_0_r, Hd in E0. injection E0 as <-.
      specialize (LO LV). rewrite <- leaves_section_eq. unfold leaves_section. cbn [existsb] in *. lia.
    - cbn [unmark vi_noop]. discriminate.
    - apply (IH (S k) R). intros j v' Hj. specialize (H (S j) v' Hj). replace (k + S j)%nat with (S k + j)%nat in H by lia. exact H.
  Qed.

  (** Block starts are entries. *)
  Hypothesis DS : dead_struct l.
  Lemma prev_live_none_or l' : forall k, (forall i d, (i < k)%nat -> nth_error l' i = Some d -> is_dead d = true) -> prev_live l' k = None.
  Proof.
    intros k H. unfold prev_live. assert (G : forall q, Forall (fun d => is_dead d = true) q -> fold_left (fun acc d => if is_dead d then acc else Some d) q None = @None idata).
    { induction q as [|x q IHq]; intros F; [reflexivity|]. inversion F; subst. cbn. rewrite H2. apply IHq. assumption. }
    apply G. apply Forall_forall. intros x Hx. apply In_nth_error in Hx as (i & Hi). assert (L : (i < length (firstn k l'))%nat) by (apply nth_error_Some; congruence).
    rewrite firstn_length in L. apply (H i x); [lia|]. rewrite <- Hi. symmetry. clear - L. revert i l' L. induction k as [|k IH]; intros i l' L; [lia|]. destruct l', i; cbn in *; auto. apply IH. lia.
  Qed.
  Lemma after_gap k d : nth_error l k = Some d -> is_dead d = true -> exists d0, prev_live l (S k) = Some d0 /\ can_fall_through d0 = false.
  Proof.
    revert d. induction k as [|k IH]; intros d H D; [rewrite (proj1 DS d H) in D; discriminate|].
    destruct (nth_error l k) as [dk|] eqn:Hk; [|apply nth_error_None in Hk; assert ((S k < length l)%nat) by (apply nth_error_Some; congruence); lia].
    destruct (is_dead dk) eqn:Dk.
    - destruct (IH dk eq_refl Dk) as (d0 & P0 & F0). exists d0. split; [|exact F0].
      unfold prev_live in *. rewrite (firstn_snoc l (S k) d H), fold_left_app. cbn [fold_left]. rewrite D. exact P0.
    - exists dk. split.
      + unfold prev_live. rewrite (firstn_snoc l (S k) d H), fold_left_app. cbn [fold_left]. rewrite D. exact (prev_live_S l k dk Hk Dk).
      + destruct (proj2 DS k dk d Hk H D) as [X|X]; [congruence|exact X].
  Qed.

  Definition starts_block (s : nat) : Prop := is_leader dyn l s = true \/ exists k d, s = S k /\ nth_error l k = Some d /\ is_dead d = true.
  Lemma build_starts ll : forall i cur pending, skipn i l = ll ->
    (pending = true -> exists k d, i = S k /\ nth_error l k = Some d /\ is_dead d = true) ->
    match cur with None => i = 0%nat \/ exists k d, i = S k /\ nth_error l k = Some d /\ is_dead d = true | Some (s, _) => starts_block s end ->
    forall r, In r (build dyn l i ll cur pending) -> starts_block (fst r).
  Proof.
    induction ll as [|d ll IH]; intros i cur pending E HP HC r Hr; cbn [build] in Hr.
    { destruct cur as [[s e]|]; [|destruct Hr]. destruct Hr as [<-|[]]. exact HC. }
    assert (Hn : nth_error l i = Some d) by (rewrite <- (Nat.add_0_r i), <- nth_skipn, E; reflexivity).
    assert (E' : skipn (S i) l = ll) by (rewrite (SectionsProof.skipn_cons _ _ _ Hn) in E; congruence).
    destruct (is_dead d) eqn:D.
    { refine (IH (S i) cur _ E' _ _ r Hr); [intros _; exists i, d; auto|]. destruct cur as [[s e]|]; [exact HC|]. right. exists i, d. auto. }
    destruct cur as [[s e]|].
    - destruct (is_leader dyn l i || pending) eqn:LP.
      + destruct Hr as [<-|Hr]; [exact HC|]. refine (IH (S i) _ _ E' _ _ r Hr); [discriminate|].
        apply orb_true_iff in LP as [LP|LP]; [left; exact LP|right; exact (HP LP)].
      + refine (IH (S i) _ _ E' _ _ r Hr); [discriminate|exact HC].
    - refine (IH (S i) _ _ E' _ _ r Hr); [discriminate|]. destruct HC as [->|HC]; [left; reflexivity|right; exact HC].
  Qed.
  Lemma ends_of_branching d : is_branching d = true -> ends_section istanbul d = true.
  Proof. unfold ends_section. intros ->. rewrite orb_true_r. reflexivity. Qed.
  Lemma starts_entry k d : nth_error l k = Some d -> is_dead d = false -> starts_block k -> entry dyn istanbul l k.
  Proof.
    intros Hd D [L|(j & e & -> & He & De)].
    - unfold is_leader in L. exists d. split; [exact Hd|]. split; [exact D|]. apply orb_true_iff in L as [L|L]; [right|rewrite Hd in L; auto].
      destruct k as [|k]; [reflexivity|]. cbn [leader_before] in L. destruct (nth_error l k) as [e|] eqn:He; [|discriminate].
      apply andb_prop in L as [L1 L2]. rewrite (prev_live_S l k e He) by (destruct (is_dead e); [discriminate|reflexivity]).
      apply ends_of_branching. unfold is_branching in *. destruct (is_diverging e), (is_jump e); cbn in *; congruence.
    - destruct (after_gap j e He De) as (d0 & P0 & F0). exists d. split; [exact Hd|]. split; [exact D|]. right. rewrite P0.
      apply ends_of_branching, no_fall_branching, F0.
  Qed.
  Lemma block_entry r : In r (ranges dyn l) -> entry dyn istanbul l (fst r).
  Proof.
    intros Hr. destruct (ranges_spec dyn l DS) as (WF & CH & _). destruct (In_nth_error _ _ Hr) as (b & Hb).
    destruct (wf_ranges_nth _ _ _ _ _ WF Hb) as (W1 & W2). destruct (CH r Hr (fst r)) as (d & Hd & D & _); [lia|].
    apply (starts_entry (fst r) d Hd D). refine (build_starts l 0 None false eq_refl _ (or_introl eq_refl) r Hr). discriminate.
  Qed.
  (** What follows a block, if live, starts another block and so a section. *)
  Lemma block_follow r d : In r (ranges dyn l) -> nth_error l (snd r) = Some d -> is_dead d = false -> entry dyn istanbul l (snd r).
  Proof.
    intros Hr Hd D. destruct (ranges_spec dyn l DS) as (WF & _ & COV & _). destruct (COV _ _ Hd D) as (r' & Hr' & IN).
    destruct (In_nth_error _ _ Hr) as (b & Hb). destruct (In_nth_error _ _ Hr') as (b' & Hb').
    destruct (wf_ranges_nth _ _ _ _ _ WF Hb) as (W1 & W2). unfold in_range in IN.
    assert (fst r' = snd r); [|replace (snd r) with (fst r') by assumption; apply block_entry; exact Hr'].
    destruct (Nat.lt_trichotomy b b') as [C|[C|C]].
    - pose proof (wf_ranges_sep _ _ _ _ _ _ _ WF Hb Hb' C). lia.
    - subst b'. rewrite Hb in Hb'. injection Hb' as <-. lia.
    - pose proof (wf_ranges_sep _ _ _ _ _ _ _ WF Hb' Hb C). lia.
  Qed.
End Link.
