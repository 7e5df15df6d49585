(** The code of a block with its stack-bounds checks ([krun]). *)
From Verif Require Import OpcodeSpec SectionsModel SectionsProof SummarySpec DseProof StructProof CfgProof ProgramProof FlowSpec BlockProof SummaryProof LinkProof VStackProof DseProps BlockProps SummaryProps JumpModel.
From Verif Require Import WholeSpec.
From Coq Require Import ZifyBool.
Import ListNotations.
Open Scope Z_scope.

Lemma check_passes a b len : 0 <= len <= 1024 -> (check_stack_bounds (Z.of_nat a, Z.of_nat b) len = true <-> Z.of_nat a <= len /\ len + Z.of_nat b <= 1024).
Proof.
  intros H. unfold check_stack_bounds, STACK_CAP.
  destruct (0 <? Z.of_nat a) eqn:A; destruct (0 <? Z.of_nat b) eqn:B; cbn [andb]; [destruct (1024 <? Z.of_nat b) eqn:C|..|]; try lia.
  destruct (1024 <? Z.of_nat b) eqn:C; lia.
Qed.

Section Run.
Context {W : Type}.
(** The instructions' meaning with the same checks, and what is promised as far as the run gets. *)
Fixpoint kerun (l : list (vinst W)) w st : option (kres (eres W)) :=
  match l with
  | [] => Some (KRes (ENext w st))
  | i :: tl =>
    if head_fails i (Z.of_nat (length st)) then Some KStack
    else match estep i w st with Some (ENext w' st') => kerun tl w' st' | Some r => Some (KRes r) | None => None end
  end.
Fixpoint kfacts (l : list (vinst W)) w st : Prop :=
  match l with
  | [] => True
  | i :: tl =>
    head_fails i (Z.of_nat (length st)) = false ->
    vi_fact i (firstn (vi_in i) st) /\
    match estep i w st with Some (ENext w' st') => kfacts tl w' st' | _ => True end
  end.
Lemma kerun_erun l : forall w st r, kerun l w st = Some (KRes r) -> erun l w st = Some r.
Proof.
  induction l as [|i tl IH]; intros w st r H; cbn [kerun erun] in *; [congruence|].
  destruct (head_fails i _); [discriminate H|]. destruct (estep i w st) as [[w1|w1 st1]|]; [congruence|auto|discriminate H].
Qed.

(** Where a check has passed, every instruction of the section has room. *)
Lemma room (v : vinst W) tl len slo inp gr : fits slo inp gr (v :: tl) -> head_fails v len = false -> 0 <= len <= 1024 ->
  (vi_head v = None -> exists L0, inp <= L0 /\ L0 + gr <= 1024 /\ len = L0 + slo) ->
  exists L0 slo1 inp1 gr1, inp1 <= L0 /\ L0 + gr1 <= 1024 /\ len = L0 + slo1 /\ Z.of_nat (vi_in v) <= len /\
    len - Z.of_nat (vi_in v) + Z.of_nat (vi_out v) <= 1024 /\ fits (slo1 - Z.of_nat (vi_in v) + Z.of_nat (vi_out v)) inp1 gr1 tl.
Proof.
  intros FT HF LEN HSEC. cbn [fits] in FT. unfold head_fails in HF. destruct (vi_head v) as [[a g]|].
  - apply negb_false_iff in HF. apply check_passes in HF; [|exact LEN]. destruct FT as (F1 & F2 & F3).
    exists len, 0, (Z.of_nat a), (Z.of_nat g). do 5 (split; [lia|]). exact F3.
  - destruct (HSEC eq_refl) as (L0 & Q1 & Q2 & Q3). destruct FT as (F1 & F2 & F3). exists L0, slo, inp, gr. do 5 (split; [lia|]). exact F3.
Qed.

Lemma krun_ok l : forall w c st r sec (live live_end : Z -> Prop) nh,
  Forall inst_ok l -> ends_ok l nh -> kfacts l w st -> lives l w st live live_end ->
  (let '(slo, inp, gr) := sec in fits slo inp gr l) ->
  (match l with
   | i :: _ => at_point (is_head i) live c st /\ (is_head i = false -> in_section c sec)
   | [] => True
   end) ->
  kerun l w st = Some r ->
  match r with
  | KStack => krun l nh w c = Some KStack
  | KRes (EHalt w') => krun l nh w c = Some (KRes (RHalt w'))
  | KRes (ENext w' st') =>
    exists c', krun l nh w c = Some (KRes (RNext w' c')) /\ (l = [] -> c' = c) /\
      (l <> [] -> nh = true -> in_memory_on live_end c' st')
  end.
Proof.
  induction l as [|i tl IH]; intros w c st r sec live live_end nh OK EN FA LV FT PT E.
  { cbn in E. injection E as <-. exists c. repeat split; auto; congruence. }
  cbn [kerun] in E. cbn [krun]. cbn [kfacts] in FA.
  cbn [lives] in LV. destruct LV as (live' & LS & LV). inversion OK as [|? ? O1 O2]; subst.
  destruct PT as (P1 & P2). destruct sec as [[slo inp] gr]. cbn [fits] in FT.
  assert (HF : head_fails i (c_len c) = head_fails i (Z.of_nat (length st))).
  { unfold head_fails. unfold at_point, is_head in P1. destruct (vi_head i) as [[a b]|]; [|reflexivity]. destruct P1 as (-> & _). reflexivity. }
  rewrite HF. destruct (head_fails i (Z.of_nat (length st))) eqn:HFE; [injection E as <-; reflexivity|].
  destruct (FA eq_refl) as (FA1 & FA2). clear FA HF.
  set (nh' := match tl with j :: _ => is_head j | [] => nh end).
  assert (BD : let '(slo, inp, gr) := section_of i (slo, inp, gr) in
     - inp <= slo - Z.of_nat (vi_in i) /\ slo - Z.of_nat (vi_in i) + Z.of_nat (vi_out i) <= gr /\
     fits (slo - Z.of_nat (vi_in i) + Z.of_nat (vi_out i)) inp gr tl).
  { unfold section_of. destruct (vi_head i) as [[a b]|]; exact FT. }
  destruct (estep i w st) as [r1|] eqn:E1; [|discriminate].
  assert (X := step_ok live live' i nh' w c st r1 (slo, inp, gr) P1 P2).
  destruct (section_of i (slo, inp, gr)) as [[slo1 inp1] gr1]. destruct BD as (BD1 & BD2 & BD3).
  specialize (X (conj BD1 BD2) O1 FA1 LS E1).
  destruct r1 as [w1|w1 st1]; [injection E as <-; now rewrite X|].
  destruct X as (c1 & -> & A & SEC).
  assert (EN' : (is_exit (vi_body i) = true -> nh' = true) /\ (vi_noop i = true -> nh' = false) /\ ends_ok tl nh).
  { cut ((leaves (vi_body i) = true -> nh' = true) /\ (vi_noop i = true -> nh' = false) /\ ends_ok tl nh); [|destruct tl; exact EN].
    intros (X1 & X2). split; [|exact X2]. intros X. apply X1. exact (exit_leaves _ _ _ _ _ O1 X E1). }
  destruct EN' as (EX & EH & EN').
  destruct tl as [|j tl].
  - cbn in E. injection E as <-. exists c1. cbn in nh'. subst nh'. split; [reflexivity|]. split; [discriminate|].
    cbn [lives] in LV. intros _ N. unfold after in A.
    assert (W1 : forall c, in_memory_on live' c st1 -> in_memory_on live_end c st1).
    { intros x (A1 & A2). split; auto. }
    destruct (is_exit (vi_body i)); [auto|].
    destruct A as (A1 & A2). apply W1, A2; auto.
    destruct (vi_noop i); [|reflexivity]. rewrite EH in N by reflexivity. discriminate.
  - specialize (IH w1 c1 st1 r (slo1 - Z.of_nat (vi_in i) + Z.of_nat (vi_out i), inp1, gr1) live' live_end nh O2 EN' FA2 LV BD3).
    assert (PT : at_point (is_head j) live' c1 st1 /\ (is_head j = false -> in_section c1 (slo1 - Z.of_nat (vi_in i) + Z.of_nat (vi_out i), inp1, gr1))).
    { cbn in nh'. subst nh'. unfold after in A. unfold at_point. destruct (is_exit (vi_body i)).
      - rewrite EX by reflexivity. split; [exact A|discriminate].
      - split; [|intros _; now apply SEC]. destruct A as (A1 & A2). destruct (is_head j); [|exact A1]. apply A2; [reflexivity|].
        destruct (vi_noop i); [|reflexivity]. specialize (EH eq_refl). discriminate. }
    specialize (IH PT E). destruct r as [|[w'|w' st']]; [exact IH|exact IH|].
    destruct IH as (c' & V & _ & P). exists c'. split; [exact V|]. split; [discriminate|]. intros _ N.
    apply P; [discriminate|exact N].
Qed.

Lemma kblock_ok inspect l ds (vs : list (vinst W)) w c st r :
  dse_block inspect l = Some ds -> Forall item_ok l -> Forall aligned l -> representable l ->
  Forall2 lowered (remark l ds) vs -> Forall ok_unmarked vs -> heads_ok l vs -> ends_ok (map unmark vs) true ->
  fits 0 0 0 vs -> starts_head vs -> in_memory c st -> kfacts vs w st -> kerun vs w st = Some r ->
  match r with
  | KStack => krun vs true w c = Some KStack
  | KRes (EHalt w') => krun vs true w c = Some (KRes (RHalt w'))
  | KRes (ENext w' st') => exists c', krun vs true w c = Some (KRes (RNext w' c')) /\ in_memory c' st'
  end.
Proof.
  intros DB IT AL RE LO OK HO EN FT SH IM FA ER.
  destruct (block_lives inspect l ds vs true w st DB IT AL RE LO OK HO EN) as (IOK & EN' & live & live_end & LV & LE).
  destruct vs as [|v vs]; [contradiction|]. cbn in SH.
  assert (PT : at_point (is_head v) live c st /\ (is_head v = false -> in_section c (0, 0, 0))).
  { rewrite SH. split; [|discriminate]. destruct IM as (I1 & I2). split; [exact I1|auto]. }
  pose proof (krun_ok (v :: vs) w c st r (0, 0, 0) live live_end true IOK EN' FA LV FT PT ER) as RR.
  destruct r as [|[w'|w' st']]; [exact RR|exact RR|]. destruct RR as (c' & V & _ & RR).
  exists c'. split; [exact V|]. specialize (LE w' st' (kerun_erun _ _ _ _ ER)).
  destruct RR as (Q1 & Q2); [discriminate|reflexivity|]. split; [exact Q1|]. intros p P _. apply Q2; [exact P|]. apply LE. lia.
Qed.
End Run.

(** The same for a block of a contract that has gone through the passes. *)
Lemma kcontract {W} info stack_io key lim code env prog inspect istanbul extra p p' bl l l' (vs : list (vinst W)) w c st r :
  small_loaded info stack_io key lim code env prog -> analyze env prog = Some p -> dead_store_elim inspect (a_const env) p = Some p' ->
  let P := construct_sections (b_dyn p') istanbul extra (b_insts p') in
  In bl (b_blocks p) -> items_at (a_const env) p (blk_insts bl) = Some l -> items_at (a_const env) p' (blk_insts bl) = Some l' ->
  Forall aligned l -> Forall2 lowered l' vs -> Forall (fun v => inst_ok (unmark v)) vs ->
  (forall k v, nth_error vs k = Some v -> exists d, nth_error P (bk_start bl + k) = Some d /\ headed d v /\ leaves_by_opcode d v) ->
  in_memory c st -> kfacts vs w st -> kerun vs w st = Some r ->
  match r with
  | KStack => krun vs true w c = Some KStack
  | KRes (EHalt w') => krun vs true w c = Some (KRes (RHalt w'))
  | KRes (ENext w' st') => exists c', krun vs true w c = Some (KRes (RNext w' c')) /\ in_memory c' st'
  end.
Proof.
  intros SL AN DE P IN IL IL' AL LO OK HD IM FA ER.
  destruct (contract_parts info stack_io key lim code env prog inspect istanbul extra p p' bl l l' vs SL AN DE IN IL IL' LO HD) as ((ds & DB & ->) & I1 & RE & HEADS & ENDS & FIT & SH & NX).
  exact (kblock_ok inspect l ds vs w c st r DB I1 AL RE LO OK HEADS ENDS FIT SH IM FA ER).
Qed.
