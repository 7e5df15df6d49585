(** A concrete code generator for a few opcodes, used only in the examples and the witness of the dead
    store elimination properties. The machine state is the list of operands of the MSTOREs so far. *)
From Verif Require Import DseSpec VStackProof DseProof.
From Coq Require Import ZifyBool.
Import ListNotations.
Open Scope Z_scope.

Definition Wd := list Z.
Definition value_sent := 1000.
Definition fact_of (snap : list aval) (args : list Z) : Prop :=
  forall d k, snap_const snap d = Some k -> nth d args 0 = k.
Definition fact_b (snap : list aval) (args : list Z) : bool :=
  forallb (fun d => match snap_const snap d with Some k => nth d args 0 =? k | None => true end) (seq 0 (length snap)).
Lemma fact_b_ok snap args : fact_b snap args = true -> fact_of snap args.
Proof.
  unfold fact_b. rewrite forallb_forall. intros H d k E.
  assert (D : (d < length snap)%nat).
  { unfold snap_const in E. destruct (nth_error (rev snap) d) eqn:N; [|discriminate].
    assert (nth_error (rev snap) d <> None) as X by congruence. apply nth_error_Some in X. rewrite rev_length in X. exact X. }
  specialize (H d). rewrite in_seq, E in H. specialize (H ltac:(lia)). lia.
Qed.

(** PUSH, POP, JUMPDEST, CALLVALUE, ADDMOD, MSTORE, STOP, DUP1. *)
Definition low (h : option (nat * nat)) (t : ditem) : vinst Wd :=
  let op := d_op (it_d t) in
  let k := match out_const (it_out t) with Some k => k | None => 0 end in
  let mk e b := mkVi e b (it_inp t) (it_outp t) (f_noop (d_flags (it_d t))) h (fun d => snap_const (it_in t) d) (out_const (it_out t)) (fact_of (it_in t)) in
  if (0x5f <=? op) && (op <=? 0x7f) then mk (EOp (fun w _ => (w, Some [k]))) (BFold k)
  else if op =? 0x50 then mk (EOp (fun w _ => (w, Some []))) BPop
  else if op =? 0x5b then mk (EOp (fun w _ => (w, Some []))) BNop
  else if op =? 0x34 then mk (EOp (fun w _ => (w, Some [value_sent]))) BBuiltinTop
  else if op =? 0x08 then
    mk (EOp (fun w args => (w, Some [(nth 0 args 0 + nth 1 args 0) mod nth 2 args 0]))) BBuiltin
  else if op =? 0x52 then mk (EOp (fun w args => (w ++ args, Some []))) (BInline 2 false)
  else if op =? 0x80 then mk (EDup 1) (BDup 1)
  else mk (EOp (fun w _ => (w, None))) BHalt.

Definition opt_b {A} (o : option A) : bool := match o with Some _ => true | None => false end.
Definition low_b (t : ditem) : bool :=
  let d := it_d t in
  let op := d_op d in
  let io := d_io d in
  (0 <=? fst io) && (0 <=? snd io) && negb (f_disabled (d_flags d)) && negb (f_unknown (d_flags d)) &&
  (length (it_in t) <=? it_inp t)%nat &&
  (((0x5f <=? op) && (op <=? 0x7f) && (fst io =? 0) && (snd io =? 1) && opt_b (out_const (it_out t)))
   || (negb (opt_b (out_const (it_out t))) &&
       (((op =? 0x50) && (fst io =? 1) && (snd io =? 0)) || ((op =? 0x5b) && (fst io =? 0) && (snd io =? 0))
        || ((op =? 0x34) && (fst io =? 0) && (snd io =? 1)) || ((op =? 0x08) && (fst io =? 3) && (snd io =? 1))
        || ((op =? 0x52) && (fst io =? 2) && (snd io =? 0)) || ((op =? 0x80) && (fst io =? 1) && (snd io =? 2))
        || ((op =? 0x00) && (fst io =? 0) && (snd io =? 0))))).

Lemma snap_bound snap d k : snap_const snap d = Some k -> (d < length snap)%nat.
Proof.
  unfold snap_const. destruct (nth_error (rev snap) d) eqn:N; [|discriminate]. intros _.
  assert (nth_error (rev snap) d <> None) as X by congruence. apply nth_error_Some in X. rewrite rev_length in X. exact X.
Qed.
Lemma is_div_small d : f_disabled (d_flags d) = false -> f_unknown (d_flags d) = false -> 0 < d_op d < 0xf0 -> d_op d <> 0x56 -> is_diverging d = false.
Proof.
  intros A B C D. unfold is_diverging. rewrite A, B. change OP_JUMP with 0x56. change OP_STOP with 0x00. change OP_RETURN with 0xf3.
  change OP_REVERT with 0xfd. change OP_INVALID with 0xfe. change OP_SELFDESTRUCT with 0xff. lia.
Qed.

Lemma low_cases t (io := d_io (it_d t)) (op := d_op (it_d t)) :
  ((0x5f <=? op) && (op <=? 0x7f) && (fst io =? 0) && (snd io =? 1) && opt_b (out_const (it_out t)))
   || (negb (opt_b (out_const (it_out t))) &&
       (((op =? 0x50) && (fst io =? 1) && (snd io =? 0)) || ((op =? 0x5b) && (fst io =? 0) && (snd io =? 0))
        || ((op =? 0x34) && (fst io =? 0) && (snd io =? 1)) || ((op =? 0x08) && (fst io =? 3) && (snd io =? 1))
        || ((op =? 0x52) && (fst io =? 2) && (snd io =? 0)) || ((op =? 0x80) && (fst io =? 1) && (snd io =? 2))
        || ((op =? 0x00) && (fst io =? 0) && (snd io =? 0)))) = true ->
  (0x5f <= op <= 0x7f /\ fst io = 0 /\ snd io = 1 /\ exists k, out_const (it_out t) = Some k) \/
  (out_const (it_out t) = None /\
   (op = 0x50 /\ fst io = 1 /\ snd io = 0 \/ op = 0x5b /\ fst io = 0 /\ snd io = 0 \/ op = 0x34 /\ fst io = 0 /\ snd io = 1 \/
    op = 0x08 /\ fst io = 3 /\ snd io = 1 \/ op = 0x52 /\ fst io = 2 /\ snd io = 0 \/ op = 0x80 /\ fst io = 1 /\ snd io = 2 \/
    op = 0x00 /\ fst io = 0 /\ snd io = 0)).
Proof.
  intros H. apply orb_prop in H as [H|H].
  - repeat (let X := fresh "X" in apply andb_prop in H as [H X]). left. destruct (out_const (it_out t)) as [k|]; [|discriminate].
    repeat split; [apply Z.leb_le; exact H|apply Z.leb_le; exact X2|apply Z.eqb_eq; exact X1|apply Z.eqb_eq; exact X0|eauto].
  - right. apply andb_prop in H as [N H]. destruct (out_const (it_out t)); [discriminate|]. split; [reflexivity|].
    repeat (apply orb_prop in H as [H|H]); apply andb_prop in H as [H H3]; apply andb_prop in H as [H1 H2];
      apply Z.eqb_eq in H1, H2, H3; tauto.
Qed.

Lemma low_ok h t : low_b t = true -> lowered t (low h t) /\ inst_ok (unmark (low h t)).
Proof.
  intros H. unfold low_b in H. apply andb_prop in H as [H C]. apply andb_prop in H as [H LEN]. apply andb_prop in H as [H FU].
  apply andb_prop in H as [H FD]. apply andb_prop in H as [I0 O0].
  assert (HE : vi_in (low h t) = it_inp t /\ vi_out (low h t) = it_outp t /\ vi_noop (low h t) = f_noop (d_flags (it_d t)) /\
    vi_cin (low h t) = (fun d => snap_const (it_in t) d) /\ vi_cout (low h t) = out_const (it_out t) /\ vi_fact (low h t) = fact_of (it_in t)).
  { unfold low. repeat match goal with |- context [if ?b then _ else _] => destruct b end; repeat split; reflexivity. }
  destruct HE as (E1 & E2 & E3 & E4 & E5 & E6).
  assert (CI : const_inputs_ok (unmark (low h t))).
  { intros d k E. cbn [unmark vi_cin vi_in vi_fact] in E |- *. rewrite E4 in E. rewrite E1, E6. split; [apply snap_bound in E; revert LEN; zonly; lia|]. intros args _ F. apply F. exact E. }
  assert (NO : noop_ok (unmark (low h t))) by (intros E; discriminate E).
  assert (BASE : Z.of_nat (vi_in (low h t)) = fst (d_io (it_d t)) /\ Z.of_nat (vi_out (low h t)) = snd (d_io (it_d t))).
  { rewrite E1, E2. unfold it_inp, it_outp. revert I0 O0; zonly; lia. }
  cut (const_output_ok (low h t) /\ body_ok (low h t) /\ meaning_ok (it_d t) (it_imm t) (low h t)).
  { intros (CO & BO & ME). split.
    - refine (conj (proj1 BASE) (conj (proj2 BASE) (conj E3 (conj _ (conj E5 ME))))). intros d. rewrite E4. reflexivity.
    - exact (conj CI (conj CO (conj BO NO))). }
  assert (FX : f_disabled (d_flags (it_d t)) || f_unknown (d_flags (it_d t)) = false) by (revert FD FU; clear; lia).
  assert (IO : it_inp t = Z.to_nat (fst (d_io (it_d t))) /\ it_outp t = Z.to_nat (snd (d_io (it_d t)))) by (split; reflexivity).
  destruct IO as (IO1 & IO2).
  unfold meaning_ok. rewrite FX. clear CI NO FX E3 E4.
  pose proof (is_div_small (it_d t) ltac:(revert FD; clear; lia) ltac:(revert FU; clear; lia)) as ND.
  apply low_cases in C as [(OP & F0 & F1 & k & EK)|(EK & C)].
  - (* push *)
    assert (P : (0x5f <=? d_op (it_d t)) && (d_op (it_d t) <=? 0x7f) = true) by (zonly; lia).
    assert (LO : vi_evm (low h t) = EOp (fun w _ => (w, Some [k])) /\ vi_body (low h t) = BFold k).
    { unfold low. rewrite P, EK. split; reflexivity. }
    destruct LO as (LE & LB). unfold const_output_ok, body_ok. rewrite LE, LB, E1, E2, E5. rewrite EK. repeat split.
    + zonly; lia.
    + injection H as <-. reflexivity.
    + intros w args outs _ E. cbn in E. injection E as <-. cbn [length]. zonly; lia.
    + zonly; lia.
    + assert (SH : shape_of (d_op (it_d t)) (it_imm t) = ShOther).
      { unfold shape_of. clear -OP. repeat (match goal with |- context [if ?b then _ else _] => replace b with false by lia end). reflexivity. }
      rewrite SH. split; [discriminate|]. eexists. split; [reflexivity|]. split.
      * intros _. split; [reflexivity|]. intros w args _. eexists. reflexivity.
      * intros D. rewrite ND in D by (zonly; lia). discriminate.
  - assert (CO : const_output_ok (low h t)) by (intros k E; rewrite E5, EK in E; discriminate).
    split; [exact CO|].
    assert (P : (0x5f <=? d_op (it_d t)) && (d_op (it_d t) <=? 0x7f) = false) by (clear -C; lia).
    clear P CO E5 E6. unfold body_ok. rewrite E1, E2.
    unfold low. destruct C as [(O & F0 & F1)|[(O & F0 & F1)|[(O & F0 & F1)|[(O & F0 & F1)|[(O & F0 & F1)|[(O & F0 & F1)|(O & F0 & F1)]]]]]];
      rewrite O in ND |- *; cbn -[Z.eqb it_inp it_outp] in ND |- *; cbn [Z.eqb Pos.eqb];
      try (assert (NDV : is_diverging (it_d t) = false) by (apply ND; zonly; lia)).
    + split; [split; [intros w args outs _ E; injection E as <-; cbn; lia|repeat split; lia]|]. split; [reflexivity|]. eexists. reflexivity.
    + split; [split; [intros w args outs _ E; injection E as <-; cbn; lia|repeat split; lia]|]. split; [discriminate|]. eexists. split; [reflexivity|].
      split; [|rewrite NDV; discriminate]. intros X. exfalso. unfold stack_only in X. lia.
    + split; [split; [intros w args outs _ E; injection E as <-; cbn; lia|repeat split; lia]|]. split; [discriminate|]. eexists. split; [reflexivity|].
      split; [|rewrite NDV; discriminate]. intros X. split; [reflexivity|]. intros w args _. eexists. reflexivity.
    + split; [split; [intros w args outs _ E; injection E as <-; cbn; lia|exact Logic.I]|]. split; [discriminate|]. eexists. split; [reflexivity|].
      split; [|rewrite NDV; discriminate]. intros X. split; [reflexivity|]. intros w args _. eexists. reflexivity.
    + split; [split; [intros w args outs _ E; injection E as <-; cbn; lia|split; lia]|]. split; [discriminate|]. eexists. split; [reflexivity|].
      split; [|rewrite NDV; discriminate]. intros X. exfalso. unfold stack_only in X. lia.
    + split; [repeat split; lia|]. reflexivity.
    + split; [split; [intros w args outs _ E; discriminate E|repeat split; lia]|]. split; [discriminate|]. eexists. split; [reflexivity|].
      split; [|intros _ w args; reflexivity]. intros X. exfalso. unfold stack_only in X. lia.
Qed.

(** The block as compiled: its first instruction starts a section with the block's summary. *)
Definition low_block (l : list ditem) : list (vinst Wd) :=
  let '(a, b) := stack_section (block_summary l) in
  match l with [] => [] | t :: l' => low (Some (Z.to_nat a, Z.to_nat b)) t :: map (low None) l' end.
Lemma low_block_ok l : forallb low_b l = true -> Forall2 lowered l (low_block l) /\ Forall (fun v => inst_ok (unmark v)) (low_block l).
Proof.
  intros H. unfold low_block. destruct (stack_section _) as [a b]. destruct l as [|t l]; [split; constructor|]. cbn [forallb] in H.
  apply andb_prop in H as [H1 H2]. split.
  - constructor; [apply low_ok; exact H1|]. induction l as [|x l IH]; [constructor|]. cbn [forallb] in H2. apply andb_prop in H2 as [H2 H3].
    constructor; [apply low_ok; exact H2|auto].
  - constructor; [apply low_ok; exact H1|]. induction l as [|x l IH]; [constructor|]. cbn [forallb] in H2. apply andb_prop in H2 as [H2 H3].
    constructor; [apply low_ok; exact H2|auto].
Qed.
Lemma low_head h t : vi_head (low h t) = h.
Proof. unfold low. repeat match goal with |- context [if ?b then _ else _] => destruct b end; reflexivity. Qed.
Lemma low_block_heads l l' : heads_ok l (low_block l').
Proof.
  unfold low_block. destruct (stack_section _) as [a b]. destruct l' as [|t l']; [destruct l; exact Logic.I|].
  assert (G : forall m k v, heads_ok k (v :: map (low None) m)).
  { intros m. induction m as [|x m IH]; intros k v; destruct k as [|y k]; cbn [map heads_ok]; auto.
    split; [|apply IH]. unfold is_head. rewrite low_head. discriminate. }
  apply G.
Qed.

(** Executable versions of the side conditions. *)
Fixpoint fits_b (slo inp gr : Z) (l : list (vinst Wd)) : bool :=
  match l with
  | [] => true
  | i :: tl =>
    let '(slo, inp, gr) := match vi_head i with Some (a, b) => (0, Z.of_nat a, Z.of_nat b) | None => (slo, inp, gr) end in
    (- inp <=? slo - Z.of_nat (vi_in i)) && (slo - Z.of_nat (vi_in i) + Z.of_nat (vi_out i) <=? gr) &&
    fits_b (slo - Z.of_nat (vi_in i) + Z.of_nat (vi_out i)) inp gr tl
  end.
Lemma fits_b_ok l : forall slo inp gr, fits_b slo inp gr l = true -> fits slo inp gr l.
Proof.
  induction l as [|i l IH]; intros slo inp gr H; cbn [fits_b fits] in *; [exact Logic.I|].
  destruct (vi_head i) as [[a b]|]; apply andb_prop in H as [H H3]; apply andb_prop in H as [H1 H2]; repeat split; try lia; apply IH; exact H3.
Qed.
Fixpoint facts_b (l : list ditem) (vs : list (vinst Wd)) w st : bool :=
  match l, vs with
  | t :: l', v :: vs' => fact_b (it_in t) (firstn (vi_in v) st) && match estep v w st with Some (ENext w' st') => facts_b l' vs' w' st' | _ => true end
  | [], [] => true
  | _, _ => false
  end.
Lemma facts_b_ok l : forall h w st, facts_b l (map (low h) l) w st = true -> facts_hold (map (low h) l) w st.
Proof.
  induction l as [|t l IH]; intros h w st H; cbn [map facts_b facts_hold] in *; [exact Logic.I|]. apply andb_prop in H as [H1 H2]. split.
  - apply fact_b_ok in H1. revert H1. unfold low. repeat match goal with |- context [if ?b then _ else _] => destruct b end; cbn; auto.
  - destruct (estep _ _ _) as [[|w' st']|]; auto.
Qed.
Lemma facts_low_block l w st : facts_b l (low_block l) w st = true -> facts_hold (low_block l) w st.
Proof.
  unfold low_block. destruct (stack_section _) as [a b]. destruct l as [|t l]; [intros; exact Logic.I|]. cbn [facts_b facts_hold].
  intros H. apply andb_prop in H as [H1 H2]. split.
  - apply fact_b_ok in H1. revert H1. unfold low. repeat match goal with |- context [if ?b then _ else _] => destruct b end; cbn; auto.
  - destruct (estep _ _ _) as [[|w' st']|]; auto. apply facts_b_ok. exact H2.
Qed.
Definition item_b (t : ditem) : bool := negb (f_noop (d_flags (it_d t))) && negb ((0xe6 <=? d_op (it_d t)) && (d_op (it_d t) <=? 0xe8)).
Lemma item_b_ok l : forallb item_b l = true -> Forall item_ok l.
Proof. rewrite forallb_forall, Forall_forall. intros H t Ht. specialize (H t Ht). unfold item_b in H. unfold item_ok. lia. Qed.
Definition aligned_b (t : ditem) : bool := match it_in t with [] => true | s => Z.of_nat (length s) =? fst (d_io (it_d t)) end.
Lemma aligned_b_ok l : forallb aligned_b l = true <-> Forall aligned l.
Proof.
  rewrite forallb_forall, Forall_forall. split; intros H t Ht; specialize (H t Ht); unfold aligned_b, aligned in *; destruct (it_in t); auto.
  - right. lia.
  - destruct H; [discriminate|lia].
Qed.
Definition representable_b (l : list ditem) : bool :=
  let ios := map (fun t => d_io (it_d t)) l in (deepest ios 0 <? 2 ^ 16) && (highest ios 0 <? 2 ^ 15).
Lemma representable_b_ok l : representable_b l = true -> representable l.
Proof. unfold representable_b, representable. lia. Qed.
Fixpoint ends_b (l : list (vinst Wd)) (nh : bool) : bool :=
  match l with
  | [] => true
  | i :: tl => (negb (leaves (vi_body i)) || match tl with j :: _ => is_head j | [] => nh end) && ends_b tl nh
  end.
Lemma ends_b_ok l nh : ends_b l nh = true -> ends_ok (map unmark l) nh.
Proof.
  induction l as [|i l IH]; cbn [ends_b map ends_ok]; [auto|]. intros H. apply andb_prop in H as [H1 H2].
  replace (match map unmark l with [] => nh | j :: _ => is_head j end) with (match l with [] => nh | j :: _ => is_head j end) by (destruct l; reflexivity).
  split; [intros E; cbn [unmark vi_body] in E; rewrite E in H1; exact H1|]. split; [discriminate|auto].
Qed.

(** A compiled state holding a stack in memory. *)
Definition cx_of (st : list Z) : cx :=
  mkCx (vs_reset 0 0) (fun p => nth (length st - 1 - Z.to_nat p) st 0) 0 0 0 (Z.of_nat (length st)) 0.
Lemma cx_of_ok st : in_memory (cx_of st) st.
Proof. split; [reflexivity|]. intros p P _. reflexivity. Qed.
