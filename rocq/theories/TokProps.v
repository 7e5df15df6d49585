(** C57 and C58: the assembler reads texts by their lexical grammar, replaces macros as defined, and the
    colored listing is the plain one plus colors. *)
From Coq Require Import ZifyBool String Ascii.
From Verif Require Import MacroProof.
Open Scope Z_scope.

(** The text of a string literal. *)
Fixpoint txt (s : string) : text :=
  match s with EmptyString => [] | String a s' => Z.of_nat (nat_of_ascii a) :: txt s' end.

(** ** C57: tokens and colors *)

(** The tokenizer yields exactly the sequence of tokens that the lexical grammar gives the text; in
    particular every text has one and only one. *)
Theorem C57_tokens : forall parse s ts, tokenize parse s = ts <-> lexes parse s ts.
Proof. exact tokenize_spec. Qed.

(** Nothing is lost: the tokens written one after the other are the text, and each takes at least one
    character. *)
Theorem C57_lossless : forall parse s,
  flat_map spelling (tokenize parse s) = s /\ (forall t, In t (tokenize parse s) -> spelling t <> []).
Proof.
  intros parse s. pose proof (proj1 (tokenize_spec parse s _) eq_refl) as L. split; [exact (lexes_spelling _ _ _ L) |].
  induction L as [| w t rest ts LX _ IH]; [intros t [] |].
  intros t' [<- | H]; [| exact (IH t' H)]. destruct (lexeme_spelling _ _ _ _ LX) as [-> NE]. exact NE.
Qed.

(** The full claim, "the colored listing is the plain listing with color codes", is false
    ([C57_colors_refuted]): parentheses and [$name] are dropped. It holds of texts without those tokens. *)
Theorem C57_colors_partial : forall parse opcode_color s,
  (forall n, ansi_code (opcode_color n)) ->
  (forall ts t, lexes parse s ts -> In t ts ->
     t_kind t <> KLParen /\ t_kind t <> KRParen /\ t_kind t <> KParamRef) ->
  decorated (colorize parse opcode_color s) s.
Proof.
  intros parse oc s OC N. pose proof (proj1 (tokenize_spec parse s _) eq_refl) as L.
  unfold colorize. specialize (fun t => N _ t L). revert L N. generalize (tokenize parse s). intros ts L N.
  induction L as [| w t rest ts LX _ IH]; cbn; [constructor |].
  apply decorated_app.
  - rewrite <- (proj1 (lexeme_spelling _ _ _ _ LX)).
    destruct (N t (or_introl eq_refl)) as (A & B & C). apply color_token_ok; try assumption.
    intros K. inversion LX; subst; cbn in K; try discriminate K; reflexivity.
  - apply IH. intros t' H. apply N. right. exact H.
Qed.

(** In particular of texts without the characters [(], [)] and [$]. *)
Theorem C57_plain_colors_partial : forall parse opcode_color s,
  (forall n, ansi_code (opcode_color n)) -> ~ In 40 s -> ~ In 41 s -> ~ In 36 s ->
  decorated (colorize parse opcode_color s) s.
Proof.
  intros parse oc s OC N1 N2 N3. apply C57_colors_partial; [exact OC |].
  intros ts t L. induction L as [| w t' rest ts LX _ IH]; [intros [] |].
  rewrite in_app_iff in N1, N2, N3. intros [-> | H]; [| apply IH; tauto].
  repeat split; intros K; inversion LX; subst; cbn in K; try discriminate K; cbn in *; tauto.
Qed.

Lemma decorated_in o p c : decorated o p -> In c p -> In c o.
Proof.
  induction 1 as [| x o p _ IH | w o p _ _ IH]; intros H; [exact H | |].
  - destruct H as [-> | H]; [left; reflexivity | right; exact (IH H)].
  - rewrite in_app_iff. right. exact (IH H).
Qed.

Lemma code_no_paren w : ansi_code w -> ~ In 40 w.
Proof.
  intros (ds & -> & D) [H | [H | H]]; [discriminate H | discriminate H |]. rewrite in_app_iff in H.
  destruct H as [H | [H | []]]; [| discriminate H]. rewrite Forall_forall in D. specialize (D _ H). unfold digit in D. lia.
Qed.

(** Every unknown opcode is listed as [UNKNOWN(0x..)] and loses its parentheses in the colored listing. *)
Theorem C57_unknown_opcodes : forall parse opcode_color name hex2 op,
  (forall n, ansi_code (opcode_color n)) -> name op = None ->
  (exists a b, hex2 op = [a; b] /\ hexdigit a /\ hexdigit b) ->
  let s := opcode_text name hex2 op None in
  In 40 s /\ ~ In 40 (colorize parse opcode_color s) /\ ~ decorated (colorize parse opcode_color s) s.
Proof.
  intros parse oc name hex2 op OC N (a & b & HX & A & B) s.
  assert (IN : In 40 s).
  { unfold s, opcode_text. rewrite N. cbn. tauto. }
  assert (NOT : ~ In 40 (colorize parse oc s)).
  { assert (ST : forall p, stops p []) by (intros p c r H; discriminate H).
    set (w := [48; 120; a; b]).
    assert (NU : numeral w [41]).
    { apply Num_hex; [left; reflexivity | constructor; [exact A | constructor; [exact B | constructor]] |].
      intros c r [= <- <-] Q. unfold hexdigit, digit in Q. lia. }
    set (num := match parse w with Some n => Tok w (KNumber n) | None => Tok w KUnknown end).
    assert (L : lexes parse s [Tok (txt "UNKNOWN") KIdent; Tok [40] KLParen; num; Tok [41] KRParen]).
    { unfold s, opcode_text. rewrite N, HX, app_nil_r.
      apply (Lexes_cons parse (txt "UNKNOWN") _ (40 :: w ++ [41])).
      - apply Lex_ident.
        + exists 85, (txt "NKNOWN"). split; [reflexivity |]. unfold letter, namechar, letter, digit.
          split; [lia |]. cbn. repeat (apply Forall_cons; [lia |]). apply Forall_nil.
        + intros c r [= <- <-] Q. unfold namechar, letter, digit in Q. lia.
        + intros c r [= <- <-] Q. lia.
      - apply (Lexes_cons parse [40] _ (w ++ [41])); [constructor |].
        apply (Lexes_cons parse w); [unfold num; destruct (parse w) eqn:P; [apply Lex_number | apply Lex_badnumber]; assumption |].
        apply (Lexes_cons parse [41] _ []); constructor. }
    unfold colorize. rewrite (proj2 (tokenize_spec _ _ _) L). cbn [flat_map].
    assert (W : ~ In 40 w).
    { unfold hexdigit, digit in A, B. cbn. lia. }
    assert (NUM : ~ In 40 (color_token oc num)).
    { unfold num. destruct (parse w); cbn [color_token t_kind t_src]; [| exact W].
      rewrite !in_app_iff. intros [H | [H | H]]; [cbn in H; lia | exact (W H) | cbn in H; lia]. }
    rewrite !in_app_iff. intros [H | [H | [H | [H | H]]]]; try exact (NUM H); try exact H.
    cbn [color_token t_kind t_src] in H. rewrite !in_app_iff in H.
    destruct H as [H | [H | [H | H]]]; [cbn in H; lia | exact (code_no_paren _ (OC _) H) | cbn in H; lia | cbn in H; lia]. }
  split; [exact IN |]. split; [exact NOT |]. intros D. exact (NOT (decorated_in _ _ _ D IN)).
Qed.

(** A reading of numerals for the examples: hexadecimal after [0x], else decimal, below 2^256. *)
Fixpoint digits (base acc : Z) (s : text) : Z :=
  match s with
  | [] => acc
  | c :: s' => digits base (acc * base + (if c <=? 57 then c - 48 else if c <=? 70 then c - 55 else c - 87)) s'
  end.
Definition parse_u256 (s : text) : option Z :=
  let n := match s with 48 :: 120 :: ds | 48 :: 88 :: ds => digits 16 0 ds | _ => digits 10 0 s end in
  if (0 <=? n) && (n <? 2 ^ 256) then Some n else None.

Definition white (_ : text) : text := [27; 91; 51; 55; 109].

Theorem C57_colors_refuted : exists parse opcode_color s,
  (forall n, ansi_code (opcode_color n)) /\
  s = opcode_text (fun _ => None) (fun _ => txt "0c") 0x0c None /\ s = txt "UNKNOWN(0x0c)" /\
  ~ decorated (colorize parse opcode_color s) s.
Proof.
  exists parse_u256, white, (txt "UNKNOWN(0x0c)").
  assert (OC : forall n, ansi_code (white n)).
  { intros n. exists [51; 55]. split; [reflexivity |]. unfold digit. repeat constructor; lia. }
  split; [exact OC |]. split; [reflexivity |]. split; [reflexivity |].
  assert (N : (if in_dec Z.eq_dec 40 (colorize parse_u256 white (txt "UNKNOWN(0x0c)")) then true else false) = false)
    by (vm_compute; reflexivity).
  destruct (in_dec Z.eq_dec 40 _) as [| K] in N; [discriminate N |].
  intros D. apply K, (decorated_in _ _ _ D). cbn. tauto.
Qed.

(** A line with a label, a comment, a jump, numbers of all sorts and stray characters. *)
Example C57_ex :
  tokenize parse_u256 (txt "a1: PUSH2 0xFf,%a1 12x $p #!( ; end") =
  [Tok (txt "a1") KLabel; Tok (txt " ") KWhitespace; Tok (txt "PUSH2") KIdent; Tok (txt " ") KWhitespace;
   Tok (txt "0xFf") (KNumber 255); Tok (txt ",") KComma; Tok (txt "a1") KLabelRef; Tok (txt " ") KWhitespace;
   Tok (txt "12") (KNumber 12); Tok (txt "x") KIdent; Tok (txt " ") KWhitespace; Tok (txt "p") KParamRef;
   Tok (txt " ") KWhitespace; Tok (txt "#!") KUnknown; Tok (txt "(") KLParen; Tok (txt " ") KWhitespace;
   Tok (txt "; end") KComment].
Proof. vm_compute. reflexivity. Qed.

(** A listing line to which [C57_plain_colors_partial] applies. *)
Example C57_plain_ex :
  let s := txt "bb0:  PUSH1 0x2a JUMP %bb1 ; pc=0" in
  (forall n, ansi_code (white n)) /\ ~ In 40 s /\ ~ In 41 s /\ ~ In 36 s /\ decorated (colorize parse_u256 white s) s.
Proof.
  cbn zeta. assert (OC : forall n, ansi_code (white n)).
  { intros n. exists [51; 55]. split; [reflexivity |]. unfold digit. repeat constructor; lia. }
  assert (N : forall c, (if in_dec Z.eq_dec c (txt "bb0:  PUSH1 0x2a JUMP %bb1 ; pc=0") then true else false) = false ->
                        ~ In c (txt "bb0:  PUSH1 0x2a JUMP %bb1 ; pc=0")).
  { intros c H. destruct (in_dec _ _ _); [discriminate H | assumption]. }
  assert (N1 := N 40 eq_refl). assert (N2 := N 41 eq_refl). assert (N3 := N 36 eq_refl).
  repeat (split; [assumption |]). apply C57_plain_colors_partial; assumption.
Qed.

(** ** C58: macros *)

(** Preprocessing succeeds with [out] exactly if the lines of the text define macros and contain tokens
    whose expansion is [out]. All definitions apply to the whole text, the last one of a name counting. *)
Theorem C58_preprocess : forall parse s out,
  preprocess parse s = Some out <->
  exists ls env raw, text_lines s ls /\ reads parse predefined ls env raw /\ expands env raw out.
Proof. exact preprocess_spec. Qed.

(** Expansion alone, for every table: invocations are recognized with their nested parentheses, each
    parameter is replaced by its argument, everything else stays, and it fails on every malformed
    invocation. *)
Theorem C58_expand : forall m ts out, expand_macros m ts = Some out <-> expands (lookup m) ts out.
Proof. exact expand_macros_spec. Qed.

(** A definition is accepted exactly if it has the form [NAME body] or [NAME(p, ...) body]. *)
Theorem C58_define : forall parse after m m',
  parse_define parse after m = Some m' <-> exists name d, m' = (name, d) :: m /\ defines parse after name d.
Proof.
  intros parse after m m'. split; [apply parse_define_sound |]. intros (n & d & -> & D).
  apply parse_define_complete, D.
Qed.

(** [ts] mentions no macro. *)
Definition macro_free (env : text -> option macro) (ts : list tok) : Prop :=
  forall t, In t ts -> t_kind t = KIdent -> env (t_src t) = None.

(** Text without macro names stays as it is. *)
Theorem C58_unchanged : forall env ts out, macro_free env ts -> (expands env ts out <-> out = ts).
Proof.
  intros env ts out F. split.
  - intros X. induction X as [| t ts o N _ IH | t d ts o K E | t d l inside args r ts b o K E].
    + reflexivity.
    + f_equal. apply IH. intros t' H. apply F. right. exact H.
    + rewrite (F t (or_introl eq_refl) K) in E. discriminate E.
    + rewrite (F t (or_introl eq_refl) K) in E. discriminate E.
  - intros ->. induction ts as [| t ts IH]; constructor.
    + apply F. left. reflexivity.
    + apply IH. intros t' H. apply F. right. exact H.
Qed.

(** The full claim of C macros, "after preprocessing no macro name is left", is false
    ([C58_nested_refuted]): bodies and arguments are not expanded again. It holds if no body mentions a
    macro and only macros without arguments are used. *)
Theorem C58_no_names_partial : forall env ts out,
  (forall n d, env n = Some d -> macro_free env (m_body d)) ->
  (forall t d, In t ts -> t_kind t = KIdent -> env (t_src t) = Some d -> m_fn d = false) ->
  expands env ts out -> macro_free env out.
Proof.
  intros env ts out B O X. induction X as [| t ts o N _ IH | t d ts o K E F _ IH | t d l inside args r ts b o K E F].
  - intros t [].
  - intros t' [<- | H] K; [exact (N K) |]. apply IH; [| exact H | exact K]. intros t0 d H0. apply O. right. exact H0.
  - intros t' H K'. apply in_app_or in H. destruct H as [H | H]; [exact (B _ _ E _ H K') |].
    apply IH; [| exact H | exact K']. intros t0 d0 H0. apply O. right. exact H0.
  - rewrite (O t d (or_introl eq_refl) K E) in F. discriminate F.
Qed.

Definition lines_of (ls : list string) : text := flat_map (fun l => txt l ++ [10]) ls.

Theorem C58_nested_refuted : exists parse s out m kept t,
  preprocess parse s = Some out /\ scan parse (split_lines [] s) builtin_macros = Some (m, kept) /\
  In t out /\ t_kind t = KIdent /\ lookup m (t_src t) <> None.
Proof.
  exists parse_u256, (lines_of ["#define ONE PUSH1 1"; "#define TWO ONE ONE ADD"; "TWO STOP"]%string).
  eexists _, _, _, (Tok (txt "ONE") KIdent).
  split; [vm_compute; reflexivity |]. split; [vm_compute; reflexivity |].
  split; [left; vm_compute; reflexivity |]. split; [reflexivity | vm_compute; discriminate].
Qed.

(** Arguments with nested parentheses and commas, a macro without arguments, one used before its
    definition, a redefinition and a predefined one. *)
Example C58_ex :
  preprocess parse_u256
    (lines_of ["  PAIR(f(1,2), 3) ; not this, PAIR"; "#define PAIR(a, b) $b $a $c"; "#define E() ADD";
               "#define K (7)"; "#defined K"; "E() K #define K 1"; "#define K (8)"]%string) =
  Some ([Tok (txt "3") (KNumber 3); Tok (txt "f") KIdent; Tok (txt "(") KLParen; Tok (txt "1") (KNumber 1);
         Tok (txt ",") KComma; Tok (txt "2") (KNumber 2); Tok (txt ")") KRParen; Tok (txt "c") KParamRef]
        ++ [Tok (txt "#") KUnknown; Tok (txt "defined") KIdent; Tok (txt "(") KLParen; Tok (txt "8") (KNumber 8); Tok (txt ")") KRParen]
        ++ [Tok (txt "ADD") KIdent; Tok (txt "(") KLParen; Tok (txt "8") (KNumber 8); Tok (txt ")") KRParen;
            Tok (txt "#") KUnknown; Tok (txt "define") KIdent; Tok (txt "(") KLParen; Tok (txt "8") (KNumber 8); Tok (txt ")") KRParen;
            Tok (txt "1") (KNumber 1)]).
Proof. vm_compute. reflexivity. Qed.

(** Malformed invocations and definitions are rejected. *)
Example C58_errors_ex :
  map (fun ls => preprocess parse_u256 (lines_of ls))
    [["#define F(a) $a"; "F 1"]; ["#define F(a) $a"; "F(1, 2)"]; ["#define F(a) $a"; "F(1"]; ["#define F() 1"; "F(1)"];
     ["#define 1 2"]; ["#define F(a"]; ["#define"]]%string = repeat None 7.
Proof. vm_compute. reflexivity. Qed.

Print Assumptions C57_tokens.
Print Assumptions C57_lossless.
Print Assumptions C57_colors_partial.
Print Assumptions C57_plain_colors_partial.
Print Assumptions C57_unknown_opcodes.
Print Assumptions C57_colors_refuted.
Print Assumptions C58_preprocess.
Print Assumptions C58_expand.
Print Assumptions C58_define.
Print Assumptions C58_unchanged.
Print Assumptions C58_no_names_partial.
Print Assumptions C58_nested_refuted.
