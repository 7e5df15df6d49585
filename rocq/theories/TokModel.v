(** Model of the assembler's tokenizer and macro preprocessor, and of the colorizer of the listing.

    Source: crates/revmc-codegen/src/bytecode/asm.rs:40-438 and fmt.rs:216-251.
    A text is the list of its code points. [str] offsets are bytes in the code and positions here: every
    offset the code computes is the start of a code point. *)
From Coq Require Export ZArith List Lia Bool.
Export ListNotations.
Open Scope Z_scope.

(** [&str]. *)
Definition text := list Z.

(** [char::is_ascii_whitespace] (standard library): space, tab, line feed, form feed, carriage return. *)
Definition is_ws (c : Z) : bool := (c =? 32) || (c =? 9) || (c =? 10) || (c =? 12) || (c =? 13).
(** [char::is_ascii_digit]. *)
Definition is_digit (c : Z) : bool := (48 <=? c) && (c <=? 57).
(** [char::is_ascii_alphabetic]. *)
Definition is_alpha (c : Z) : bool := ((65 <=? c) && (c <=? 90)) || ((97 <=? c) && (c <=? 122)).
(** [char::is_ascii_alphanumeric]. *)
Definition is_alnum (c : Z) : bool := is_digit c || is_alpha c.
(** [char::is_ascii_hexdigit]. *)
Definition is_hex (c : Z) : bool := is_digit c || ((65 <=? c) && (c <=? 70)) || ((97 <=? c) && (c <=? 102)).

(** [TokenKind], asm.rs:55-78. *)
Inductive kind :=
| KIdent | KLabel | KLabelRef | KNumber (n : Z) | KComma | KLParen | KRParen | KParamRef | KWhitespace
| KComment | KUnknown.

(** [Token], asm.rs:46-51. *)
Record tok := Tok { t_src : text; t_kind : kind }.

(** The longest prefix of characters satisfying [p], and the rest: [rest.find(|c| !p(c))] with
    [unwrap_or(rest.len())], asm.rs:106, 116-118. *)
Fixpoint span (p : Z -> bool) (s : text) : text * text :=
  match s with
  | [] => ([], [])
  | c :: s' => if p c then let '(a, b) := span p s' in (c :: a, b) else ([], s)
  end.

(** The predicate of [read_word], asm.rs:106. *)
Definition is_word (c : Z) : bool := is_alnum c || (c =? 95).

(** [read_word], asm.rs:104-110: the word and the remaining text. *)
Definition read_word (s : text) : text * text := span is_word s.

(** The loop condition of the last arm, asm.rs:216-221, negated: the character is consumed. The list is
    ['_' ';' '%' '$' ',' '(' ')' ':']. *)
Definition is_junk (c : Z) : bool :=
  negb (is_ws c || is_alnum c ||
        (c =? 95) || (c =? 59) || (c =? 37) || (c =? 36) || (c =? 44) || (c =? 40) || (c =? 41) || (c =? 58)).

Section Tokenizer.
  (** [str::parse::<U256>] (ruint), asm.rs:122. *)
  Variable parse : text -> option Z.

  (** [read_number], asm.rs:113-126. *)
  Definition read_number (s : text) : tok * text :=
    let '(src, rest) :=
      match s with
      | 48 :: x :: s' =>
          if (x =? 120) || (x =? 88) then let '(a, b) := span is_hex s' in (48 :: x :: a, b)
          else span is_digit s
      | _ => span is_digit s
      end in
    (match parse src with Some n => Tok src (KNumber n) | None => Tok src KUnknown end, rest).

  (** [Tokenizer::next], asm.rs:132-230: the token and the remaining text. *)
  Definition next (s : text) : option (tok * text) :=
    match span is_ws s with
    | (w :: ws, rest) => Some (Tok (w :: ws) KWhitespace, rest)
    | ([], _) =>
        match s with
        | [] => None
        | c :: s' =>
            if c =? 59 then
              let '(a, b) := span (fun c => negb (c =? 10)) s in Some (Tok a KComment, b)
            else if c =? 37 then
              let '(name, b) := read_word s' in
              Some (match name with [] => Tok [c] KUnknown | _ => Tok name KLabelRef end, b)
            else if c =? 36 then
              let '(name, b) := read_word s' in
              Some (match name with [] => Tok [c] KUnknown | _ => Tok name KParamRef end, b)
            else if c =? 44 then Some (Tok [c] KComma, s')
            else if c =? 40 then Some (Tok [c] KLParen, s')
            else if c =? 41 then Some (Tok [c] KRParen, s')
            else if is_digit c then Some (read_number s)
            else if is_alpha c || (c =? 95) then
              let '(word, b) := read_word s in
              match b with
              | 58 :: b' => Some (Tok word KLabel, b')
              | _ => Some (Tok word KIdent, b)
              end
            else if c =? 58 then Some (Tok [] KLabel, s')
            else let '(a, b) := span is_junk s in Some (Tok a KUnknown, b)
        end
    end.

  (** The iterator run to its end. The fuel is the length of the text; [next] always consumes something
      (TokProof.v, [next_shorter]). *)
  Fixpoint tokens (fuel : nat) (s : text) : list tok :=
    match fuel with
    | O => []
    | S f => match next s with None => [] | Some (t, rest) => t :: tokens f rest end
    end.
  Definition tokenize (s : text) : list tok := tokens (length s) s.

  (** The filter of asm.rs:288-289 and 303: no whitespace and no comments. *)
  Definition meaningful (t : tok) : bool :=
    match t_kind t with KWhitespace | KComment => false | _ => true end.

  (** [MacroDef], asm.rs:238-243. *)
  Record macro := Macro { m_fn : bool; m_params : list text; m_body : list tok }.

  (** The macro table. A [HashMap]; here an association list whose first entry counts. *)
  Definition table := list (text * macro).

  Definition text_eqb (a b : text) : bool := if list_eq_dec Z.eq_dec a b then true else false.

  Fixpoint lookup (m : table) (n : text) : option macro :=
    match m with
    | [] => None
    | (n', d) :: m' => if text_eqb n' n then Some d else lookup m' n
    end.

  (** [builtin_macros], asm.rs:246-263: [RET_WORD] is [PUSH0 MSTORE PUSH1 0x20 PUSH0 RETURN]. *)
  Definition builtin_macros : table :=
    [([82; 69; 84; 95; 87; 79; 82; 68],
      Macro false []
        [Tok [80; 85; 83; 72; 48] KIdent;
         Tok [77; 83; 84; 79; 82; 69] KIdent;
         Tok [80; 85; 83; 72; 49] KIdent;
         Tok [48; 120; 50; 48] (KNumber 32);
         Tok [80; 85; 83; 72; 48] KIdent;
         Tok [82; 69; 84; 85; 82; 78] KIdent])].

  (** [str::lines] (standard library): split at line feeds, without a last empty line. The carriage
      return before a line feed, which [lines] removes too, is removed by [trim] below. [cur] is the line
      so far. *)
  Fixpoint split_lines (cur s : text) : list text :=
    match s with
    | [] => match cur with [] => [] | _ => [cur] end
    | c :: s' => if c =? 10 then cur :: split_lines [] s' else split_lines (cur ++ [c]) s'
    end.

  (** [char::is_whitespace] (Unicode White_Space), which [str::trim] uses. *)
  Definition is_uws (c : Z) : bool :=
    ((9 <=? c) && (c <=? 13)) || (c =? 32) || (c =? 133) || (c =? 160) || (c =? 5760) ||
    ((8192 <=? c) && (c <=? 8202)) || (c =? 8232) || (c =? 8233) || (c =? 8239) || (c =? 8287) || (c =? 12288).

  (** [str::trim]. *)
  Definition trim (s : text) : text :=
    rev (snd (span is_uws (rev (snd (span is_uws s))))).

  (** [trimmed.strip_prefix("#define")] together with the condition on what follows, asm.rs:276-278. *)
  Definition directive (line : text) : option text :=
    match line with
    | 35 :: 100 :: 101 :: 102 :: 105 :: 110 :: 101 :: after =>
        match after with
        | [] => Some after
        | c :: _ => if is_ws c then Some after else None
        end
    | _ => None
    end.

  (** [tok.next()] of the filtered iterator, asm.rs:302-304, with the text that remains. *)
  Fixpoint next_meaningful (fuel : nat) (s : text) : option (tok * text) :=
    match fuel with
    | O => None
    | S f => match next s with
             | None => None
             | Some (t, rest) => if meaningful t then Some (t, rest) else next_meaningful f rest
             end
    end.

  (** The loop over parameter names, asm.rs:325-346: the names and the remaining tokens. *)
  Fixpoint read_params (ts : list tok) : option (list text * list tok) :=
    match ts with
    | Tok p KIdent :: Tok _ KRParen :: rest => Some ([p], rest)
    | Tok p KIdent :: Tok _ KComma :: rest =>
        match read_params rest with Some (ps, r) => Some (p :: ps, r) | None => None end
    | _ => None
    end.

  (** [parse_define], asm.rs:301-355: the table with the new entry. The first name is an identifier, so
      the character after it is the first one the tokenizer has left. *)
  Definition parse_define (after : text) (m : table) : option table :=
    match next_meaningful (length after) after with
    | Some (Tok name KIdent, rest) =>
        let is_fn := match rest with 40 :: _ => true | _ => false end in
        let all := filter meaningful (tokenize rest) in
        match is_fn, all with
        | true, Tok _ KLParen :: Tok _ KRParen :: body => Some ((name, Macro is_fn [] body) :: m)
        | true, Tok _ KLParen :: ts =>
            match read_params ts with
            | Some (ps, body) => Some ((name, Macro is_fn ps body) :: m)
            | None => None
            end
        | _, body => Some ((name, Macro is_fn [] body) :: m)
        end
    | _ => None
    end.

  (** Reading the arguments of an invocation, asm.rs:383-407: the arguments and the remaining tokens.
      [cur] is [args.last()], [done] the arguments before it. *)
  Fixpoint read_args (depth : nat) (cur : list tok) (done : list (list tok)) (ts : list tok)
    : option (list (list tok) * list tok) :=
    match ts with
    | [] => None
    | t :: ts' =>
        match t_kind t with
        | KLParen => read_args (S depth) (cur ++ [t]) done ts'
        | KRParen =>
            match depth with
            | O | 1%nat => Some (done ++ [cur], ts')
            | S d => read_args d (cur ++ [t]) done ts'
            end
        | KComma =>
            if (depth =? 1)%nat then read_args depth [] (done ++ [cur]) ts'
            else read_args depth (cur ++ [t]) done ts'
        | _ => read_args depth (cur ++ [t]) done ts'
        end
    end.

  (** [mac.params.iter().position(..)] and [args[idx]], asm.rs:427-429. *)
  Fixpoint arg_of (params : list text) (args : list (list tok)) (p : text) : option (list tok) :=
    match params, args with
    | q :: ps, a :: ar => if text_eqb q p then Some a else arg_of ps ar p
    | _, _ => None
    end.

  (** The substitution loop, asm.rs:425-434. *)
  Definition substitute (params : list text) (args : list (list tok)) (body : list tok) : list tok :=
    flat_map (fun t => match t_kind t with
                       | KParamRef => match arg_of params args (t_src t) with Some a => a | None => [t] end
                       | _ => [t]
                       end) body.

  (** The checks on the number of arguments, asm.rs:410-422. *)
  Definition arity_ok (params : list text) (args : list (list tok)) : bool :=
    match params with
    | [] => match args with [[]] => true | _ => false end
    | _ => (length args =? length params)%nat
    end.

  (** [expand_macros], asm.rs:358-438. The fuel is the number of tokens; every round consumes one. *)
  Fixpoint expand (m : table) (fuel : nat) (ts : list tok) : option (list tok) :=
    match fuel, ts with
    | _, [] => Some []
    | O, _ => None
    | S f, t :: ts' =>
        match (match t_kind t with KIdent => lookup m (t_src t) | _ => None end) with
        | None => option_map (cons t) (expand m f ts')
        | Some d =>
            if m_fn d then
              match ts' with
              | Tok _ KLParen :: ts1 =>
                  match read_args 1 [] [] ts1 with
                  | Some (args, rest) =>
                      if arity_ok (m_params d) args
                      then option_map (app (substitute (m_params d) args (m_body d))) (expand m f rest)
                      else None
                  | None => None
                  end
              | _ => None
              end
            else option_map (app (m_body d)) (expand m f ts')
        end
    end.
  Definition expand_macros (m : table) (ts : list tok) : option (list tok) := expand m (length ts) ts.

  (** The loop of [preprocess], asm.rs:274-284: the macro table and the lines that are kept. *)
  Fixpoint scan (lines : list text) (m : table) : option (table * list text) :=
    match lines with
    | [] => Some (m, [])
    | l :: ls =>
        let trimmed := trim l in
        match directive trimmed with
        | Some after =>
            match parse_define after m with Some m' => scan ls m' | None => None end
        | None => match scan ls m with Some (m', kept) => Some (m', trimmed :: kept) | None => None end
        end
    end.

  (** [preprocess], asm.rs:267-298. The table is never empty, so the early return is left out. *)
  Definition preprocess (s : text) : option (list tok) :=
    match scan (split_lines [] s) builtin_macros with
    | Some (m, kept) => expand_macros m (flat_map (fun l => filter meaningful (tokenize l)) kept)
    | None => None
    end.

  (** The constants of fmt.rs:219-227: escape, bracket, number, [m]. *)
  Definition RESET : text := [27; 91; 48; 109].
  Definition BOLD : text := [27; 91; 49; 109].
  Definition DIM : text := [27; 91; 50; 109].
  Definition CYAN : text := [27; 91; 51; 54; 109].
  Definition YELLOW : text := [27; 91; 51; 51; 109].
  Definition RED : text := [27; 91; 51; 49; 109].

  (** [opcode_color], fmt.rs:256-292: one of the color constants, by name. *)
  Variable opcode_color : text -> text.

  (** One round of [colorize], fmt.rs:232-249. ["dynamic"] is spelled out. *)
  Definition color_token (t : tok) : text :=
    let s := t_src t in
    match t_kind t with
    | KWhitespace => s
    | KLabel => BOLD ++ CYAN ++ s ++ [58] ++ RESET
    | KComment => DIM ++ s ++ RESET
    | KNumber _ => YELLOW ++ s ++ RESET
    | KLabelRef =>
        if text_eqb s [100; 121; 110; 97; 109; 105; 99] then RED ++ [37] ++ s ++ RESET
        else CYAN ++ [37] ++ s ++ RESET
    | KIdent => BOLD ++ opcode_color s ++ s ++ RESET
    | KComma => [44]
    | KUnknown => s
    | KLParen | KRParen | KParamRef => []
    end.

  (** [colorize], fmt.rs:230-251. *)
  Definition colorize (s : text) : text := flat_map color_token (tokenize s).

  (** [Display for Opcode], opcode.rs:173-184: the text of an instruction. [name] is [OPCODE_INFO[op]]'s
      name, [hex2] the two digits of [{:02x}], [imm] the immediate as [encode_prefixed] writes it. *)
  Definition opcode_text (name : Z -> option text) (hex2 : Z -> text) (op : Z) (imm : option text) : text :=
    match name op with
    | Some n => n
    | None => [85; 78; 75; 78; 79; 87; 78; 40; 48; 120] ++ hex2 op ++ [41]
    end ++ match imm with Some i => 32 :: i | None => [] end.
End Tokenizer.
