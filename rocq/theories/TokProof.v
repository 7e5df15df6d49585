(** Proofs about the tokenizer, the colorizer and the macro preprocessor. *)
From Coq Require Import ZifyBool.
From Verif Require Export TokSpec.

Ltac chars := unfold is_junk, is_word, is_ws, is_alnum, is_alpha, is_hex, is_digit, is_uws,
                     space, hexdigit, namechar, digit, letter, punctuation, blank in *.

Lemma is_ws_spec c : is_ws c = true <-> space c. Proof. chars. lia. Qed.
Lemma is_digit_spec c : is_digit c = true <-> digit c. Proof. chars. lia. Qed.
Lemma is_hex_spec c : is_hex c = true <-> hexdigit c. Proof. chars. lia. Qed.
Lemma is_word_spec c : is_word c = true <-> namechar c. Proof. chars. lia. Qed.
Lemma is_junk_spec c : is_junk c = true <-> junk c. Proof. unfold junk. chars. lia. Qed.
Lemma is_uws_spec c : is_uws c = true <-> blank c. Proof. chars. lia. Qed.
Lemma not_nl_spec c : negb (c =? 10) = true <-> c <> 10. Proof. lia. Qed.

Section Span.
  Variables (p : Z -> bool) (P : Z -> Prop).
  Hypothesis S : forall c, p c = true <-> P c.

  Lemma span_sound s a b : span p s = (a, b) -> s = a ++ b /\ Forall P a /\ stops P b.
  Proof.
    revert a b. induction s as [| c s IH]; intros a b; cbn.
    - intros [= <- <-]. repeat split; [constructor |]. intros c r H. discriminate H.
    - destruct (p c) eqn:E.
      + destruct (span p s) as [a' b'] eqn:F. intros [= <- <-]. destruct (IH _ _ eq_refl) as (-> & A & B).
        repeat split; [constructor; [apply S, E | exact A] | exact B].
      + intros [= <- <-]. repeat split; [constructor |]. intros c' r [= <- <-] C. apply S in C. congruence.
  Qed.

  Lemma span_complete a b : Forall P a -> stops P b -> span p (a ++ b) = (a, b).
  Proof.
    intros A B. induction A as [| c a C A IH]; cbn.
    - destruct b as [| c b]; cbn; [reflexivity |]. destruct (p c) eqn:E; [| reflexivity].
      apply S in E. destruct (B c b eq_refl E).
    - apply S in C. rewrite C, IH. reflexivity.
  Qed.
End Span.

Section Tokens.
  Variable parse : text -> option Z.
  Notation next := (next parse).
  Notation lexeme := (lexeme parse).
  Notation lexes := (lexes parse).

  (** The rest of [next] once the text does not start with white space. *)
  Lemma next_char c s : is_ws c = false -> next (c :: s) =
            if c =? 59 then
              let '(a, b) := span (fun c => negb (c =? 10)) (c :: s) in Some (Tok a KComment, b)
            else if c =? 37 then
              let '(name, b) := read_word s in
              Some (match name with [] => Tok [c] KUnknown | _ => Tok name KLabelRef end, b)
            else if c =? 36 then
              let '(name, b) := read_word s in
              Some (match name with [] => Tok [c] KUnknown | _ => Tok name KParamRef end, b)
            else if c =? 44 then Some (Tok [c] KComma, s)
            else if c =? 40 then Some (Tok [c] KLParen, s)
            else if c =? 41 then Some (Tok [c] KRParen, s)
            else if is_digit c then Some (read_number parse (c :: s))
            else if is_alpha c || (c =? 95) then
              let '(word, b) := read_word (c :: s) in
              match b with
              | 58 :: b' => Some (Tok word KLabel, b')
              | _ => Some (Tok word KIdent, b)
              end
            else if c =? 58 then Some (Tok [] KLabel, s)
            else let '(a, b) := span is_junk (c :: s) in Some (Tok a KUnknown, b).
  Proof. intros W. unfold next. cbn [span]. rewrite W. reflexivity. Qed.

  Lemma dec_numeral d ds rest : Forall digit (d :: ds) -> stops digit rest ->
    match (d :: ds) ++ rest with
    | 48 :: x :: s' => (x =? 120) || (x =? 88) = false
    | _ => True
    end -> numeral (d :: ds) rest.
  Proof.
    intros D R N. apply Num_dec; [exact D | exact R |]. intros (x & r & E & X). rewrite E in N. lia.
  Qed.

  Lemma read_number_sound c s t rest : is_digit c = true -> read_number parse (c :: s) = (t, rest) ->
    exists w, c :: s = w ++ rest /\ w <> [] /\ lexeme w t rest.
  Proof.
    intros C. unfold read_number.
    assert (DEC : forall a b, span is_digit (c :: s) = (a, b) ->
              (forall x r, c :: s = 48 :: x :: r -> (x =? 120) || (x =? 88) = false) ->
              c :: s = a ++ b /\ a <> [] /\ numeral a b).
    { intros a b E N. destruct (span_sound _ _ is_digit_spec _ _ _ E) as (Q & A & B).
      cbn in E. rewrite C in E. destruct (span is_digit s) as [a' b']. injection E as <- <-.
      repeat split; [exact Q | discriminate |]. apply Num_dec; [exact A | exact B |].
      intros (x & r & F & X). rewrite <- Q in F. specialize (N _ _ F). lia. }
    assert (FIN : forall a b, c :: s = a ++ b /\ a <> [] /\ numeral a b ->
              (match parse a with Some n => Tok a (KNumber n) | None => Tok a KUnknown end, b) = (t, rest) ->
              exists w, c :: s = w ++ rest /\ w <> [] /\ lexeme w t rest).
    { intros a b (Q & NE & NU) [= <- <-]. exists a. repeat split; [exact Q | exact NE |].
      destruct (parse a) eqn:PA; [apply Lex_number | apply Lex_badnumber]; assumption. }
    assert (GO : (forall x r, c :: s = 48 :: x :: r -> (x =? 120) || (x =? 88) = false) ->
              (let '(src, rest) := span is_digit (c :: s) in
               (match parse src with Some n => Tok src (KNumber n) | None => Tok src KUnknown end, rest)) = (t, rest) ->
              exists w, c :: s = w ++ rest /\ w <> [] /\ lexeme w t rest).
    { intros N. destruct (span is_digit (c :: s)) as [a b] eqn:E. apply FIN. apply DEC; [reflexivity | exact N]. }
    assert (Q : c = 48 \/ c <> 48) by lia. destruct Q as [-> | Q].
    - destruct s as [| x s].
      + apply GO. intros x r H. discriminate H.
      + destruct ((x =? 120) || (x =? 88)) eqn:X.
        * destruct (span is_hex s) as [a b] eqn:E. apply FIN.
          destruct (span_sound _ _ is_hex_spec _ _ _ E) as (-> & A & B).
          repeat split; [discriminate |]. apply Num_hex; [lia | exact A | exact B].
        * apply GO. intros x' r [= <- <-]. exact X.
    - intros H. apply GO; [intros x r [= F _]; contradiction (Q F) |].
      destruct c as [| c | c]; [exact H | | exact H].
      do 6 (destruct c as [c | c |]; [| | exact H || (exfalso; apply Q; reflexivity)]); try exact H;
      try (exfalso; apply Q; reflexivity).
  Qed.

  Lemma next_sound s t rest : next s = Some (t, rest) -> exists w, s = w ++ rest /\ w <> [] /\ lexeme w t rest.
  Proof.
    destruct s as [| c s]; [intros H; discriminate H |].
    destruct (is_ws c) eqn:W.
    { unfold next. destruct (span is_ws (c :: s)) as [a b] eqn:E.
      destruct (span_sound _ _ is_ws_spec _ _ _ E) as (Q & A & B). cbn in E. rewrite W in E.
      destruct (span is_ws s) as [a' b']. injection E as <- <-. intros [= <- <-]. exists (c :: a').
      repeat split; [exact Q | discriminate | apply Lex_space; assumption]. }
    rewrite (next_char _ _ W).
    destruct (c =? 59) eqn:E1.
    { assert (c = 59) as -> by lia. destruct (span _ (59 :: s)) as [a b] eqn:E.
      cbn in E. destruct (span _ s) as [a' b'] eqn:F. injection E as <- <-. intros [= <- <-].
      destruct (span_sound _ _ not_nl_spec _ _ _ F) as (-> & A & B). exists (59 :: a').
      repeat split; [discriminate | apply Lex_comment; assumption]. }
    destruct (c =? 37) eqn:E2.
    { assert (c = 37) as -> by lia. destruct (read_word s) as [a b] eqn:E.
      destruct (span_sound _ _ is_word_spec _ _ _ E) as (-> & A & B). destruct a as [| x a]; intros [= <- <-].
      - exists [37]. repeat split; [discriminate | apply Lex_sigil; [left; reflexivity | exact B]].
      - exists (37 :: x :: a). repeat split; [discriminate | apply Lex_labelref; assumption]. }
    destruct (c =? 36) eqn:E3.
    { assert (c = 36) as -> by lia. destruct (read_word s) as [a b] eqn:E.
      destruct (span_sound _ _ is_word_spec _ _ _ E) as (-> & A & B). destruct a as [| x a]; intros [= <- <-].
      - exists [36]. repeat split; [discriminate | apply Lex_sigil; [right; reflexivity | exact B]].
      - exists (36 :: x :: a). repeat split; [discriminate | apply Lex_paramref; assumption]. }
    destruct (c =? 44) eqn:E4.
    { assert (c = 44) as -> by lia. intros [= <- <-]. exists [44]. repeat split; [discriminate | constructor]. }
    destruct (c =? 40) eqn:E5.
    { assert (c = 40) as -> by lia. intros [= <- <-]. exists [40]. repeat split; [discriminate | constructor]. }
    destruct (c =? 41) eqn:E6.
    { assert (c = 41) as -> by lia. intros [= <- <-]. exists [41]. repeat split; [discriminate | constructor]. }
    destruct (is_digit c) eqn:E7.
    { intros [= H]. exact (read_number_sound _ _ _ _ E7 H). }
    destruct (is_alpha c || (c =? 95)) eqn:E8.
    { destruct (read_word (c :: s)) as [a b] eqn:E.
      destruct (span_sound _ _ is_word_spec _ _ _ E) as (Q & A & B).
      assert (NA : a_name a).
      { unfold read_word in E. cbn in E. replace (is_word c) with true in E by (chars; lia).
        destruct (span is_word s) as [a' b']. injection E as <- <-. exists c, a'. split; [reflexivity |].
        split; [chars; lia |]. inversion A; assumption. }
      assert (NE : a <> []) by (destruct NA as (? & ? & -> & _); discriminate).
      rewrite Q. clear Q E.
      assert (K : forall b', b = 58 :: b' -> Some (Tok a KLabel, b') = Some (t, rest) ->
                             exists w, a ++ b = w ++ rest /\ w <> [] /\ lexeme w t rest).
      { intros b' -> [= <- <-]. exists (a ++ [58]). rewrite <- app_assoc. repeat split.
        - destruct a; discriminate.
        - apply Lex_label. right. exact NA. }
      assert (L : stops (fun c => c = 58) b -> Some (Tok a KIdent, b) = Some (t, rest) ->
                             exists w, a ++ b = w ++ rest /\ w <> [] /\ lexeme w t rest).
      { intros N [= <- <-]. exists a. repeat split; [exact NE | apply Lex_ident; assumption]. }
      destruct b as [| x b]; [apply L; intros ? ? H; discriminate H |].
      destruct (Z.eq_dec x 58) as [-> | X]; [apply K; reflexivity |].
      intros H. apply L; [intros ? ? [= <- <-]; exact X |].
      destruct x as [| x | x]; [exact H | | exact H].
      do 6 (destruct x as [x | x |]; [| | exact H || (exfalso; apply X; reflexivity)]); try exact H;
      try (exfalso; apply X; reflexivity). }
    destruct (c =? 58) eqn:E9.
    { assert (c = 58) as -> by lia. intros [= <- <-]. exists [58]. repeat split; [discriminate |].
      apply (Lex_label parse []). left. reflexivity. }
    destruct (span is_junk (c :: s)) as [a b] eqn:E.
    destruct (span_sound _ _ is_junk_spec _ _ _ E) as (Q & A & B). cbn [span] in E.
    replace (is_junk c) with true in E by (chars; lia).
    destruct (span is_junk s) as [a' b']. injection E as <- <-. intros [= <- <-]. exists (c :: a').
    repeat split; [exact Q | discriminate | apply Lex_junk; assumption].
  Qed.

  Lemma next_none s : next s = None -> s = [].
  Proof.
    destruct s as [| c s]; [reflexivity |]. destruct (is_ws c) eqn:W.
    - unfold next. cbn [span]. rewrite W. destruct (span is_ws s). intros H. discriminate H.
    - rewrite (next_char _ _ W). destruct (span _ (c :: s)). destruct (read_word s). destruct (read_word (c :: s)) as [? b0].
      destruct (span is_junk (c :: s)).
      repeat match goal with |- (if ?b then _ else _) = _ -> _ => destruct b end; try (intros H; discriminate H).
      repeat match goal with |- (match ?x with _ => _ end) = _ -> _ => destruct x end; intros H; discriminate H.
  Qed.

  Lemma read_number_complete c w rest : numeral (c :: w) rest ->
    read_number parse ((c :: w) ++ rest) =
    (match parse (c :: w) with Some n => Tok (c :: w) (KNumber n) | None => Tok (c :: w) KUnknown end, rest).
  Proof.
    intros N. unfold read_number. inversion N as [x ds r X D R E | d ds r D R NX E]; subst.
    - cbn [app]. replace ((x =? 120) || (x =? 88)) with true by lia.
      rewrite (span_complete _ _ is_hex_spec _ _ D R). reflexivity.
    - pose proof (span_complete _ _ is_digit_spec _ _ D R) as Q.
      set (s := (c :: w) ++ rest) in *.
      assert (K : (match s with
                   | 48 :: x :: s' =>
                     if (x =? 120) || (x =? 88) then let '(a, b) := span is_hex s' in (48 :: x :: a, b)
                     else span is_digit s
                   | _ => span is_digit s end) = span is_digit s).
      { clearbody s. destruct s as [| a s]; [reflexivity |].
        destruct a as [| a | a]; try reflexivity.
        do 6 (destruct a as [a | a |]; try reflexivity). destruct s as [| x s]; [reflexivity |].
        destruct ((x =? 120) || (x =? 88)) eqn:X; [| reflexivity]. exfalso. apply NX. exists x, s.
        split; [reflexivity | lia]. }
      rewrite K, Q. reflexivity.
  Qed.

  Lemma numeral_head w rest : numeral w rest -> exists c w', w = c :: w' /\ digit c.
  Proof.
    intros [x ds r X D R | d ds r D R N]; [exists 48, (x :: ds) | exists d, ds]; split; try reflexivity.
    - chars. lia.
    - inversion D; assumption.
  Qed.

  Ltac off b := replace b with false by (chars; unfold junk in *; chars; lia).
  Ltac on b := replace b with true by (chars; unfold junk in *; chars; lia).

  Lemma next_number w rest : numeral w rest ->
    next (w ++ rest) = Some (match parse w with Some n => Tok w (KNumber n) | None => Tok w KUnknown end, rest).
  Proof.
    intros N. destruct (numeral_head _ _ N) as (c & w' & -> & D). cbn [app].
    rewrite next_char by (chars; lia). off (c =? 59). off (c =? 37). off (c =? 36). off (c =? 44). off (c =? 40).
    off (c =? 41). on (is_digit c). f_equal. apply (read_number_complete c w' rest N).
  Qed.

  Lemma next_name w rest : a_name w -> stops namechar rest ->
    next (w ++ rest) = match rest with
                       | 58 :: b' => Some (Tok w KLabel, b')
                       | _ => Some (Tok w KIdent, rest)
                       end.
  Proof.
    intros (c & r & -> & C & R) ST. cbn [app]. rewrite next_char by (chars; lia).
    off (c =? 59). off (c =? 37). off (c =? 36). off (c =? 44). off (c =? 40). off (c =? 41). off (is_digit c).
    on (is_alpha c || (c =? 95)). unfold read_word.
    change (c :: r ++ rest) with ((c :: r) ++ rest).
    rewrite (span_complete _ _ is_word_spec (c :: r) rest); [reflexivity | | exact ST].
    constructor; [chars; lia | exact R].
  Qed.

  Lemma next_complete w t rest : lexeme w t rest -> next (w ++ rest) = Some (t, rest).
  Proof.
    intros [c w0 r A B | w0 r A B | c w0 r A B | c w0 r A B | c r C B | r | r | r | w0 n r N PA | w0 r N PA | w0 r NA | w0 r NA B B' | c w0 r A B].
    - unfold next. rewrite (span_complete _ _ is_ws_spec _ _ A B). reflexivity.
    - cbn [app]. rewrite next_char by reflexivity. cbn [Z.eqb]. change (59 =? 59) with true. cbn iota.
      change (59 :: w0 ++ r) with ((59 :: w0) ++ r).
      rewrite (span_complete _ _ not_nl_spec (59 :: w0) r); [reflexivity | | exact B].
      constructor; [lia | exact A].
    - cbn [app]. rewrite next_char by reflexivity. change (37 =? 59) with false. change (37 =? 37) with true. cbn iota.
      change (c :: w0 ++ r) with ((c :: w0) ++ r). unfold read_word.
      rewrite (span_complete _ _ is_word_spec _ _ A B). reflexivity.
    - cbn [app]. rewrite next_char by reflexivity. change (36 =? 59) with false. change (36 =? 37) with false.
      change (36 =? 36) with true. cbn iota.
      change (c :: w0 ++ r) with ((c :: w0) ++ r). unfold read_word.
      rewrite (span_complete _ _ is_word_spec _ _ A B). reflexivity.
    - cbn [app]. pose proof (span_complete _ _ is_word_spec [] r (Forall_nil _) B) as Q. cbn [app] in Q.
      destruct C as [-> | ->]; rewrite next_char by reflexivity; cbn; unfold read_word; rewrite Q; reflexivity.
    - reflexivity.
    - reflexivity.
    - reflexivity.
    - rewrite (next_number _ _ N), PA. reflexivity.
    - rewrite (next_number _ _ N), PA. reflexivity.
    - destruct NA as [-> | NA].
      + reflexivity.
      + rewrite <- app_assoc. cbn [app]. rewrite (next_name _ _ NA); [reflexivity |].
        intros c x [= <- <-] H. chars. lia.
    - rewrite (next_name _ _ NA B). destruct r as [| x r]; [reflexivity |].
      specialize (B' _ _ eq_refl).
      destruct x as [| x | x]; [reflexivity | | reflexivity].
      do 6 (destruct x as [x | x |]; try reflexivity). destruct (B' eq_refl).
    - inversion A as [| ? ? C A']; subst. cbn [app].
      assert (is_ws c = false) as W by (apply is_junk_spec in C; chars; lia).
      rewrite (next_char _ _ W). apply is_junk_spec in C.
      off (c =? 59). off (c =? 37). off (c =? 36). off (c =? 44). off (c =? 40). off (c =? 41). off (is_digit c).
      off (is_alpha c || (c =? 95)). off (c =? 58).
      change (c :: w0 ++ r) with ((c :: w0) ++ r). rewrite (span_complete _ _ is_junk_spec _ _ A B). reflexivity.
  Qed.

  Lemma next_shorter s t rest : next s = Some (t, rest) -> (length rest < length s)%nat.
  Proof.
    intros H. destruct (next_sound _ _ _ H) as (w & -> & NE & _). rewrite app_length.
    destruct w; [destruct (NE eq_refl) | cbn; lia].
  Qed.

  Lemma tokens_sound : forall fuel s, (length s <= fuel)%nat -> lexes s (tokens parse fuel s).
  Proof.
    induction fuel as [| f IH]; intros s L.
    - destruct s; [constructor | cbn in L; lia].
    - cbn. destruct (next s) as [[t rest] |] eqn:E.
      + pose proof (next_shorter _ _ _ E). destruct (next_sound _ _ _ E) as (w & -> & NE & LX).
        apply Lexes_cons; [exact LX |]. apply IH. lia.
      + rewrite (next_none _ E). constructor.
  Qed.

  Lemma tokens_complete s ts : lexes s ts -> forall fuel, (length s <= fuel)%nat -> tokens parse fuel s = ts.
  Proof.
    induction 1 as [| w t rest ts LX _ IH]; intros fuel L.
    - destruct fuel; reflexivity.
    - pose proof (next_complete _ _ _ LX) as E. pose proof (next_shorter _ _ _ E) as SH.
      destruct fuel as [| f]; [lia |]. cbn. rewrite E, IH by lia. reflexivity.
  Qed.

  Lemma tokenize_spec s ts : tokenize parse s = ts <-> lexes s ts.
  Proof.
    split.
    - intros <-. apply tokens_sound. lia.
    - intros H. apply tokens_complete; [exact H | lia].
  Qed.

  Lemma lexeme_spelling w t rest : lexeme w t rest -> spelling t = w /\ w <> [].
  Proof.
    intros [c w0 r A B | w0 r A B | c w0 r A B | c w0 r A B | c r C B | r | r | r | w0 n r N PA | w0 r N PA | w0 r NA | w0 r NA B B' | c w0 r A B];
      (split; [reflexivity |]); try discriminate.
    - destruct (numeral_head _ _ N) as (? & ? & -> & _). discriminate.
    - destruct (numeral_head _ _ N) as (? & ? & -> & _). discriminate.
    - destruct w0; discriminate.
    - destruct NA as (? & ? & -> & _). discriminate.
  Qed.

  Lemma lexes_spelling s ts : lexes s ts -> flat_map spelling ts = s.
  Proof.
    induction 1 as [| w t rest ts LX _ IH]; [reflexivity |]. cbn. rewrite IH.
    rewrite (proj1 (lexeme_spelling _ _ _ LX)). reflexivity.
  Qed.

  (** *** Colors *)
  Variable opcode_color : text -> text.
  Hypothesis OC : forall n, ansi_code (opcode_color n).

  Lemma decorated_refl s : decorated s s.
  Proof. induction s; constructor; assumption. Qed.

  Lemma decorated_app a b c d : decorated a b -> decorated c d -> decorated (a ++ c) (b ++ d).
  Proof.
    intros H. revert c d. induction H as [| x o p _ IH | w o p W _ IH]; intros c d D; cbn.
    - exact D.
    - constructor. apply IH, D.
    - rewrite <- app_assoc. apply Dec_code; [exact W | apply IH, D].
  Qed.

  Lemma code_digits ds : Forall digit ds -> ansi_code (27 :: 91 :: ds ++ [109]).
  Proof. intros D. exists ds. split; [reflexivity | exact D]. Qed.

  Lemma wrap w1 w2 s : ansi_code w1 -> ansi_code w2 -> decorated (w1 ++ s ++ w2) s.
  Proof.
    intros A B. apply Dec_code; [exact A |]. rewrite <- (app_nil_r s) at 2.
    apply decorated_app; [apply decorated_refl |]. rewrite <- (app_nil_r w2). apply Dec_code; [exact B | constructor].
  Qed.

  Ltac code := lazymatch goal with |- ansi_code ?w =>
    let l := eval cbv in (removelast (tl (tl w))) in apply (code_digits l); repeat constructor; chars; lia end.

  Lemma color_token_ok t : t_kind t <> KLParen -> t_kind t <> KRParen -> t_kind t <> KParamRef ->
    (t_kind t = KComma -> t_src t = [44]) -> decorated (color_token opcode_color t) (spelling t).
  Proof.
    intros N1 N2 N3 CM. unfold color_token, spelling.
    destruct (t_kind t) eqn:K; try congruence.
    - apply Dec_code; [code |]. apply wrap; [apply OC | code].
    - apply Dec_code; [code |]. rewrite (app_assoc (t_src t)). apply wrap; code.
    - destruct (text_eqb _ _); rewrite app_assoc_reverse || idtac;
        apply (wrap _ _ (37 :: t_src t)); code.
    - apply wrap; code.
    - rewrite CM by reflexivity. apply decorated_refl.
    - apply decorated_refl.
    - apply wrap; code.
    - apply decorated_refl.
  Qed.
End Tokens.
