(** C58, the whole assembler: what a text assembles to, from its characters to the decoded bytecode. *)
From Coq Require Import ZifyBool String.
From Verif Require Import OpcodeModel OpcodeSpec AsmSpec AsmProof AsmProps TokSpec MacroProof TokProps AsmTextModel.
Open Scope Z_scope.

(** How a token of the text stands for a token of AsmSpec.v: [opcode] reads mnemonics, [num] numbers the
    labels. *)
Inductive denotes (opcode : text -> option Z) (num : text -> nat) : tok -> token -> Prop :=
| Den_label n : n <> [] -> denotes opcode num (Tok n KLabel) (TLabel (num n))
| Den_ref n : denotes opcode num (Tok n KLabelRef) (TLabelRef (num n))
| Den_number w n : denotes opcode num (Tok w (KNumber n)) (TNumber n)
| Den_push : denotes opcode num (Tok (txt "PUSH") KIdent) (TIdent WPush)
| Den_dup : denotes opcode num (Tok (txt "DUP") KIdent) (TIdent WDup)
| Den_swap : denotes opcode num (Tok (txt "SWAP") KIdent) (TIdent WSwap)
| Den_op w op :
    w <> txt "PUSH" -> w <> txt "DUP" -> w <> txt "SWAP" -> opcode w = Some op ->
    denotes opcode num (Tok w KIdent) (TIdent (WOp op)).

(** Different labels have different numbers. *)
Definition separates (num : text -> nat) (ts : list tok) : Prop :=
  forall a b, In a ts -> In b ts ->
    (t_kind a = KLabel \/ t_kind a = KLabelRef) -> (t_kind b = KLabel \/ t_kind b = KLabelRef) ->
    num (t_src a) = num (t_src b) -> t_src a = t_src b.

Lemma label_no_inj names : forall a b, In a names -> In b names -> label_no names a = label_no names b -> a = b.
Proof.
  induction names as [| m ms IH]; intros a b A B E; [destruct A |]. cbn [label_no] in E.
  destruct (text_eqb m a) eqn:EA, (text_eqb m b) eqn:EB; try discriminate E.
  - apply text_eqb_spec in EA. apply text_eqb_spec in EB. congruence.
  - destruct A as [-> | A]; [rewrite (proj2 (text_eqb_spec a a) eq_refl) in EA; discriminate EA |].
    destruct B as [-> | B]; [rewrite (proj2 (text_eqb_spec b b) eq_refl) in EB; discriminate EB |].
    apply IH; [exact A | exact B | congruence].
Qed.

Lemma in_label_names ts a : In a ts -> (t_kind a = KLabel \/ t_kind a = KLabelRef) -> In (t_src a) (label_names ts).
Proof.
  intros I K. unfold label_names. apply in_map, filter_In. split; [exact I |]. destruct K as [-> | ->]; reflexivity.
Qed.

Lemma separates_label_no ts : separates (label_no (label_names ts)) ts.
Proof. intros a b A B KA KB E. apply (label_no_inj (label_names ts)); auto using in_label_names. Qed.

Lemma token_of_denotes opcode names t tk : token_of opcode names t = tk ->
  tk <> TOther -> tk <> TIdent WBad -> denotes opcode (label_no names) t tk.
Proof.
  destruct t as [w k]. unfold token_of. cbn [t_kind t_src]. intros <- NO NB. destruct k; try congruence.
  - unfold word_of in *. destruct (text_eqb w [80; 85; 83; 72]) eqn:E1.
    { apply text_eqb_spec in E1. subst w. apply Den_push. }
    destruct (text_eqb w [68; 85; 80]) eqn:E2.
    { apply text_eqb_spec in E2. subst w. apply Den_dup. }
    destruct (text_eqb w [83; 87; 65; 80]) eqn:E3.
    { apply text_eqb_spec in E3. subst w. apply Den_swap. }
    destruct (opcode w) as [op |] eqn:O; [| congruence].
    apply Den_op; [intros -> | intros -> | intros -> | exact O];
      [discriminate E1 | discriminate E2 | discriminate E3].
  - destruct w; [congruence | apply Den_label; discriminate].
  - apply Den_ref.
  - apply Den_number.
Qed.

Lemma stmt_tokens_fine s t : In t (stmt_tokens s) -> t <> TOther /\ t <> TIdent WBad.
Proof.
  destruct s as [n | op | op i | i | n | n | n | n | n m]; cbn;
    repeat (intros [<- | H]; [split; try discriminate; destruct i; discriminate | revert H] || intros []);
    try (intros [<- | H]; [split; destruct i; discriminate |]; revert H); intros [].
Qed.

(** Tokens come from the text or from a macro body. *)
Lemma separated_in inside args a t : separated inside args -> In a args -> In t a -> In t inside.
Proof.
  induction 1 as [b _ | b c ts args _ _ _ IH]; intros A T.
  - destruct A as [-> | []]. exact T.
  - apply in_or_app. destruct A as [-> | A]; [left; exact T | right; right; apply IH; assumption].
Qed.

Lemma bound_in params args p a : bound params args p a -> In a args.
Proof. induction 1; [left; reflexivity | right; assumption]. Qed.

Lemma instance_in params args body o t : instance params args body o -> In t o ->
  In t body \/ exists a, In a args /\ In t a.
Proof.
  induction 1 as [| t0 a body o K B _ IH | t0 body o N _ IH]; intros T; [left; exact T | |].
  - apply in_app_or in T. destruct T as [T | T].
    + right. exists a. split; [exact (bound_in _ _ _ _ B) | exact T].
    + destruct (IH T) as [Q | Q]; [left; right; exact Q | right; exact Q].
  - destruct T as [-> | T]; [left; left; reflexivity |].
    destruct (IH T) as [Q | Q]; [left; right; exact Q | right; exact Q].
Qed.

Lemma expands_in env ts o t : expands env ts o -> In t o ->
  In t ts \/ exists n d, env n = Some d /\ In t (m_body d).
Proof.
  induction 1 as [| t0 ts o N _ IH | t0 d ts o K E F _ IH | t0 d l inside args r ts b o K E F L S R P I _ IH]; intros T.
  - left. exact T.
  - destruct T as [-> | T]; [left; left; reflexivity |]. destruct (IH T) as [Q | Q]; [left; right; exact Q | right; exact Q].
  - apply in_app_or in T. destruct T as [T | T]; [right; exists (t_src t0), d; auto |].
    destruct (IH T) as [Q | Q]; [left; right; exact Q | right; exact Q].
  - apply in_app_or in T. destruct T as [T | T].
    + destruct (instance_in _ _ _ _ _ I T) as [Q | (a & A & Q)]; [right; exists (t_src t0), d; auto |].
      left. right. right. apply in_or_app. left. exact (separated_in _ _ _ _ S A Q).
    + destruct (IH T) as [Q | Q]; [left; right; right; apply in_or_app; right; right; exact Q | right; exact Q].
Qed.

Section Numbers.
  Variable parse : text -> option Z.
  Hypothesis PR : forall w n, parse w = Some n -> 0 <= n < 2 ^ 256.
  Definition num_ok (t : tok) : Prop := forall n, t_kind t = KNumber n -> 0 <= n < 2 ^ 256.

  Lemma code_tokens_ok s ts : code_tokens parse s ts -> Forall num_ok ts.
  Proof.
    intros (all & L & ->). apply Forall_forall. intros t H. apply filter_In in H. destruct H as [H _].
    induction L as [| w t' rest ts LX _ IH]; [destruct H |]. destruct H as [-> | H]; [| exact (IH H)].
    intros n K. inversion LX; subst; cbn in K; try discriminate K. injection K as <-. eapply PR. eassumption.
  Qed.

  Lemma parameters_incl ts ps body t : parameters ts ps body -> In t body -> In t ts.
  Proof. induction 1; intros H'; [right; right; exact H' | right; right; auto]. Qed.

  Lemma defines_ok after name d : TokSpec.defines parse after name d -> Forall num_ok (m_body d).
  Proof.
    intros [n rest body _ _ _ _ _ T | n rest l r body _ _ T _ | n rest l ts ps body _ _ T P]; cbn [m_body];
      apply code_tokens_ok in T.
    - exact T.
    - inversion T as [| ? ? _ T']; subst. inversion T'; assumption.
    - rewrite Forall_forall in *. intros t H. apply T. right. exact (parameters_incl _ _ _ _ P H).
  Qed.

  Lemma reads_ok env ls env' raw : reads parse env ls env' raw ->
    (forall n d, env n = Some d -> Forall num_ok (m_body d)) ->
    Forall num_ok raw /\ (forall n d, env' n = Some d -> Forall num_ok (m_body d)).
  Proof.
    induction 1 as [env | env l t after name d ls env' raw _ _ DF _ IH | env l t ts ls env' raw _ _ T _ IH]; intros B.
    - split; [constructor | exact B].
    - apply IH. intros n d'. unfold defining. destruct (text_eqb name n); [| apply B].
      intros [= <-]. exact (defines_ok _ _ _ DF).
    - destruct (IH B) as [R E]. split; [apply Forall_app; split; [exact (code_tokens_ok _ _ T) | exact R] | exact E].
  Qed.

  Lemma preprocess_ok s out : preprocess parse s = Some out -> Forall num_ok out.
  Proof.
    intros H. apply preprocess_spec in H. destruct H as (ls & env & raw & _ & R & X).
    destruct (reads_ok _ _ _ _ R) as [RO EO].
    { unfold predefined. intros n d. destruct (text_eqb _ n); [| intros Q; discriminate Q]. intros [= <-].
      cbn [m_body]. repeat (apply Forall_cons; [intros z Q; cbn in Q; try discriminate Q; injection Q as <-; lia |]).
      constructor. }
    apply Forall_forall. intros t T. destruct (expands_in _ _ _ _ X T) as [Q | (n & d & E & Q)].
    - rewrite Forall_forall in RO. exact (RO _ Q).
    - specialize (EO _ _ E). rewrite Forall_forall in EO. exact (EO _ Q).
  Qed.
End Numbers.

(** If a text assembles, its lines define macros and contain tokens whose expansion is a program, written
    with the mnemonics, numbers and labels of the text, and the bytecode decodes to exactly that program:
    every label reference to the address of its label. *)
Theorem C58_assembled_text : forall parse opcode tbl fuel s code,
  (forall w n, parse w = Some n -> 0 <= n < 2 ^ 256) ->
  (forall w op, opcode w = Some op -> is_byte op) ->
  pushes_active tbl ->
  (forall out, preprocess parse s = Some out ->
     33 * Z.of_nat (List.length out) < 2 ^ 64 /\ (8 * List.length out < fuel)%nat) ->
  parse_asm opcode parse fuel s = AOk code ->
  exists ls env raw out num p,
    text_lines s ls /\ reads parse predefined ls env raw /\ expands env raw out /\
    separates num out /\ Forall2 (denotes opcode num) out (program_tokens p) /\ Forall stmt_wf p /\
    (Forall (enabled tbl) p ->
     exists its addr, iterate tbl code = Some its /\ aligned addr p its 0 (List.length code) /\
       addresses p its (List.length code) addr).
Proof.
  intros parse opcode tbl fuel s code PR OR PA SZ. unfold parse_asm.
  destruct (preprocess parse s) as [out |] eqn:E; [| intros H; discriminate H].
  destruct (SZ _ eq_refl) as [S1 S2]. clear SZ. pose proof (preprocess_ok _ PR _ _ E) as NO.
  pose proof E as (ls & env & raw & L & R & X)%preprocess_spec. intros A.
  set (f := token_of opcode (label_names out)) in *.
  assert (TO : Forall token_ok (map f out)).
  { rewrite Forall_forall in *. intros tk H. apply in_map_iff in H. destruct H as (t & <- & T). specialize (NO _ T).
    unfold f, token_of. destruct (t_kind t) eqn:K; cbn [token_ok]; auto.
    - unfold word_of. destruct (text_eqb _ _); [exact Logic.I |]. destruct (text_eqb _ _); [exact Logic.I |].
      destruct (text_eqb _ _); [exact Logic.I |]. destruct (opcode (t_src t)) eqn:O; [exact (OR _ _ O) | exact Logic.I].
    - destruct (t_src t); exact Logic.I. }
  destruct (C43_decodes_as_written tbl (map f out) code fuel PA TO) as (p & Q & WF & D); rewrite ?map_length; try assumption.
  exists ls, env, raw, out, (label_no (label_names out)), p.
  repeat (split; [first [assumption | apply separates_label_no] |]). split; [| split; assumption].
  assert (FI : Forall (fun tk => tk <> TOther /\ tk <> TIdent WBad) (map f out)).
  { rewrite Q. unfold program_tokens. apply Forall_forall. intros tk H. apply in_concat in H.
    destruct H as (l & HL & H). apply in_map_iff in HL. destruct HL as (st & <- & _). exact (stmt_tokens_fine _ _ H). }
  rewrite <- Q. unfold f in *. clear - FI. revert FI. generalize (label_names out). intros names FI.
  induction out as [| t out IH]; cbn [map] in *; [constructor |].
  inversion FI as [| ? ? [F1 F2] FI']; subst. constructor; [| exact (IH FI')].
  apply token_of_denotes; [reflexivity | exact F1 | exact F2].
Qed.

(** Mnemonics for the example. *)
Definition mnemonic (w : text) : option Z :=
  if text_eqb w (txt "ADD") then Some 0x01 else if text_eqb w (txt "JUMP") then Some 0x56
  else if text_eqb w (txt "JUMPDEST") then Some 0x5b else if text_eqb w (txt "PUSH0") then Some 0x5f
  else if text_eqb w (txt "PUSH1") then Some 0x60 else if text_eqb w (txt "MSTORE") then Some 0x52
  else if text_eqb w (txt "RETURN") then Some 0xf3 else None.

Definition sample : text :=
  lines_of ["#define PUSH_TWO(a, b) PUSH $a PUSH $b"; "entry: ; start"; "  PUSH_TWO(1, 0x102) ADD";
            "  PUSH %target JUMP"; "target:"; "  JUMPDEST RET_WORD"]%string.

(** The hypotheses of [C58_assembled_text] hold of a text with a macro with arguments, the predefined
    macro, a comment and a forward label. *)
Example C58_text_ex :
  (forall w n, parse_u256 w = Some n -> 0 <= n < 2 ^ 256) /\ (forall w op, mnemonic w = Some op -> is_byte op) /\
  pushes_active all_on /\
  (forall out, preprocess parse_u256 sample = Some out ->
     33 * Z.of_nat (List.length out) < 2 ^ 64 /\ (8 * List.length out < 200)%nat) /\
  parse_asm mnemonic parse_u256 200 sample =
    AOk [0x60; 1; 0x61; 1; 2; 0x01; 0x60; 9; 0x56; 0x5b; 0x5f; 0x52; 0x60; 0x20; 0x5f; 0xf3].
Proof.
  split; [| split; [| split; [intros b _; reflexivity | split]]].
  - intros w n. unfold parse_u256. set (v := match w with 48 :: 120 :: ds | 48 :: 88 :: ds => digits 16 0 ds | _ => digits 10 0 w end).
    destruct ((0 <=? v) && (v <? 2 ^ 256)) eqn:E; [| intros H; discriminate H]. intros [= <-]. lia.
  - unfold mnemonic, is_byte. intros w op.
    repeat (destruct (text_eqb _ _); [intros [= <-]; lia |]). intros H. discriminate H.
  - intros out H. assert (L : option_map (@List.length tok) (preprocess parse_u256 sample) = Some 17%nat) by (vm_compute; reflexivity).
    rewrite H in L. injection L as ->. lia.
  - vm_compute. reflexivity.
Qed.

Print Assumptions C58_assembled_text.
