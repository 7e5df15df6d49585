(** Specification of the assembler's texts: the lexical grammar, colored texts, macro definitions and
    macro invocations. Independent of the tokenizer: character classes are stated by ranges, tokens by a
    grammar with longest match. *)
From Verif Require Export TokModel.

(** ** Characters *)
Definition space c := c = 32 \/ c = 9 \/ c = 10 \/ c = 12 \/ c = 13.
Definition digit c := 48 <= c <= 57.
Definition letter c := 65 <= c <= 90 \/ 97 <= c <= 122.
Definition hexdigit c := digit c \/ 65 <= c <= 70 \/ 97 <= c <= 102.
(** Characters of names: letters, digits and the underscore. *)
Definition namechar c := letter c \/ digit c \/ c = 95.
(** The characters with a meaning of their own: [; % $ , ( ) :]. *)
Definition punctuation c := c = 59 \/ c = 37 \/ c = 36 \/ c = 44 \/ c = 40 \/ c = 41 \/ c = 58.
Definition junk c := ~ space c /\ ~ namechar c /\ ~ punctuation c.

(** A text that does not continue with a character of the class. *)
Definition stops (p : Z -> Prop) (rest : text) : Prop := forall c r, rest = c :: r -> ~ p c.

(** ** The lexical grammar *)
Definition a_name (s : text) : Prop :=
  exists c r, s = c :: r /\ (letter c \/ c = 95) /\ Forall namechar r.

(** A numeral and what may follow it. *)
Inductive numeral : text -> text -> Prop :=
| Num_hex x ds rest :
    x = 120 \/ x = 88 -> Forall hexdigit ds -> stops hexdigit rest -> numeral (48 :: x :: ds) rest
| Num_dec d ds rest :
    Forall digit (d :: ds) -> stops digit rest ->
    ~ (exists x r, (d :: ds) ++ rest = 48 :: x :: r /\ (x = 120 \/ x = 88)) -> numeral (d :: ds) rest.

(** [lexeme parse w t rest]: the characters [w], followed by [rest], are the token [t]. *)
Inductive lexeme (parse : text -> option Z) : text -> tok -> text -> Prop :=
| Lex_space c w rest : Forall space (c :: w) -> stops space rest -> lexeme parse (c :: w) (Tok (c :: w) KWhitespace) rest
| Lex_comment w rest :
    Forall (fun c => c <> 10) w -> stops (fun c => c <> 10) rest ->
    lexeme parse (59 :: w) (Tok (59 :: w) KComment) rest
| Lex_labelref c w rest :
    Forall namechar (c :: w) -> stops namechar rest -> lexeme parse (37 :: c :: w) (Tok (c :: w) KLabelRef) rest
| Lex_paramref c w rest :
    Forall namechar (c :: w) -> stops namechar rest -> lexeme parse (36 :: c :: w) (Tok (c :: w) KParamRef) rest
| Lex_sigil c rest :
    c = 37 \/ c = 36 -> stops namechar rest -> lexeme parse [c] (Tok [c] KUnknown) rest
| Lex_comma rest : lexeme parse [44] (Tok [44] KComma) rest
| Lex_lparen rest : lexeme parse [40] (Tok [40] KLParen) rest
| Lex_rparen rest : lexeme parse [41] (Tok [41] KRParen) rest
| Lex_number w n rest : numeral w rest -> parse w = Some n -> lexeme parse w (Tok w (KNumber n)) rest
| Lex_badnumber w rest : numeral w rest -> parse w = None -> lexeme parse w (Tok w KUnknown) rest
| Lex_label w rest : w = [] \/ a_name w -> lexeme parse (w ++ [58]) (Tok w KLabel) rest
| Lex_ident w rest :
    a_name w -> stops namechar rest -> stops (fun c => c = 58) rest -> lexeme parse w (Tok w KIdent) rest
| Lex_junk c w rest : Forall junk (c :: w) -> stops junk rest -> lexeme parse (c :: w) (Tok (c :: w) KUnknown) rest.

(** A text is the sequence of tokens. *)
Inductive lexes (parse : text -> option Z) : text -> list tok -> Prop :=
| Lexes_nil : lexes parse [] []
| Lexes_cons w t rest ts : lexeme parse w t rest -> lexes parse rest ts -> lexes parse (w ++ rest) (t :: ts).

(** How a token is written. *)
Definition spelling (t : tok) : text :=
  match t_kind t with
  | KLabel => t_src t ++ [58]
  | KLabelRef => 37 :: t_src t
  | KParamRef => 36 :: t_src t
  | _ => t_src t
  end.

(** ** Colored texts *)

(** An ANSI color code: escape, bracket, digits, [m]. *)
Definition ansi_code (w : text) : Prop := exists ds, w = 27 :: 91 :: ds ++ [109] /\ Forall digit ds.

(** [decorated out plain]: [out] is [plain] with color codes inserted. *)
Inductive decorated : text -> text -> Prop :=
| Dec_nil : decorated [] []
| Dec_char c o p : decorated o p -> decorated (c :: o) (c :: p)
| Dec_code w o p : ansi_code w -> decorated o p -> decorated (w ++ o) p.

(** ** Macros *)
Definition paren t := t_kind t = KLParen \/ t_kind t = KRParen.

(** Tokens with matching parentheses. *)
Inductive group : list tok -> Prop :=
| Grp_nil : group []
| Grp_tok t g : ~ paren t -> group g -> group (t :: g)
| Grp_paren l g r g' :
    t_kind l = KLParen -> group g -> t_kind r = KRParen -> group g' -> group (l :: g ++ r :: g').

(** An argument: matching parentheses, and commas only inside them. *)
Inductive argument : list tok -> Prop :=
| Arg_nil : argument []
| Arg_tok t a : ~ paren t -> t_kind t <> KComma -> argument a -> argument (t :: a)
| Arg_paren l g r a :
    t_kind l = KLParen -> group g -> t_kind r = KRParen -> argument a -> argument (l :: g ++ r :: a).

(** Arguments separated by commas: the tokens and the arguments. *)
Inductive separated : list tok -> list (list tok) -> Prop :=
| Sep_one a : argument a -> separated a [a]
| Sep_more a c ts args : argument a -> t_kind c = KComma -> separated ts args -> separated (a ++ c :: ts) (a :: args).

(** [f()] passes no arguments. *)
Inductive passes : list text -> list (list tok) -> Prop :=
| Pass_none : passes [] [[]]
| Pass_some params args : params <> [] -> length args = length params -> passes params args.

(** The argument of the parameter [p]: that of its first occurrence. *)
Inductive bound : list text -> list (list tok) -> text -> list tok -> Prop :=
| Bound_here p ps a ar : bound (p :: ps) (a :: ar) p a
| Bound_later q ps a ar p b : q <> p -> bound ps ar p b -> bound (q :: ps) (a :: ar) p b.

(** The body with every [$param] replaced by its argument. Other references stay. *)
Inductive instance (params : list text) (args : list (list tok)) : list tok -> list tok -> Prop :=
| Ins_nil : instance params args [] []
| Ins_param t a body o :
    t_kind t = KParamRef -> bound params args (t_src t) a -> instance params args body o ->
    instance params args (t :: body) (a ++ o)
| Ins_keep t body o :
    (t_kind t = KParamRef -> forall a, ~ bound params args (t_src t) a) -> instance params args body o ->
    instance params args (t :: body) (t :: o).

(** [expands env ts out]: replacing the macro invocations in [ts] gives [out]. [env] is what each name
    stands for. *)
Inductive expands (env : text -> option macro) : list tok -> list tok -> Prop :=
| Exp_nil : expands env [] []
| Exp_keep t ts o :
    (t_kind t = KIdent -> env (t_src t) = None) -> expands env ts o -> expands env (t :: ts) (t :: o)
| Exp_object t d ts o :
    t_kind t = KIdent -> env (t_src t) = Some d -> m_fn d = false -> expands env ts o ->
    expands env (t :: ts) (m_body d ++ o)
| Exp_function t d l inside args r ts b o :
    t_kind t = KIdent -> env (t_src t) = Some d -> m_fn d = true ->
    t_kind l = KLParen -> separated inside args -> t_kind r = KRParen ->
    passes (m_params d) args -> instance (m_params d) args (m_body d) b -> expands env ts o ->
    expands env (t :: l :: inside ++ r :: ts) (b ++ o).

(** ** Definitions and lines *)

(** The tokens of a text other than white space and comments. *)
Definition code_tokens (parse : text -> option Z) (s : text) (ts : list tok) : Prop :=
  exists all, lexes parse s all /\
              ts = filter (fun t => match t_kind t with KWhitespace | KComment => false | _ => true end) all.

(** A parameter list after the opening parenthesis. *)
Inductive parameters : list tok -> list text -> list tok -> Prop :=
| Par_last p r body : t_kind p = KIdent -> t_kind r = KRParen -> parameters (p :: r :: body) [t_src p] body
| Par_more p c ts ps body :
    t_kind p = KIdent -> t_kind c = KComma -> parameters ts ps body ->
    parameters (p :: c :: ts) (t_src p :: ps) body.

(** [skips parse s s']: [s'] is [s] after some white space and comments. *)
Inductive skips (parse : text -> option Z) : text -> text -> Prop :=
| Skip_none s : skips parse s s
| Skip_more w t rest s' :
    lexeme parse w t rest -> t_kind t = KWhitespace \/ t_kind t = KComment -> skips parse rest s' ->
    skips parse (w ++ rest) s'.

(** [defines parse after name d]: [#define] followed by [after] defines the macro. It takes arguments iff
    the parenthesis touches the name. *)
Inductive defines (parse : text -> option Z) (after : text) : text -> macro -> Prop :=
| Def_object name rest body :
    skips parse after (name ++ rest) -> a_name name ->
    stops namechar rest -> stops (fun c => c = 58) rest -> stops (fun c => c = 40) rest ->
    code_tokens parse rest body -> defines parse after name (Macro false [] body)
| Def_noargs name rest l r body :
    skips parse after (name ++ 40 :: rest) -> a_name name ->
    code_tokens parse (40 :: rest) (l :: r :: body) -> t_kind r = KRParen ->
    defines parse after name (Macro true [] body)
| Def_args name rest l ts ps body :
    skips parse after (name ++ 40 :: rest) -> a_name name ->
    code_tokens parse (40 :: rest) (l :: ts) -> parameters ts ps body ->
    defines parse after name (Macro true ps body).

(** Unicode white space. *)
Definition blank c :=
  9 <= c <= 13 \/ c = 32 \/ c = 133 \/ c = 160 \/ c = 5760 \/ 8192 <= c <= 8202 \/ c = 8232 \/ c = 8233 \/
  c = 8239 \/ c = 8287 \/ c = 12288.

(** [t] is the line [l] without the white space around it. *)
Definition stripped (l t : text) : Prop :=
  exists a b, l = a ++ t ++ b /\ Forall blank a /\ Forall blank b /\
              stops blank t /\ (forall t' c, t = t' ++ [c] -> ~ blank c).

(** The lines of a text. *)
Inductive text_lines : text -> list text -> Prop :=
| Lines_nil : text_lines [] []
| Lines_last l : l <> [] -> ~ In 10 l -> text_lines l [l]
| Lines_cons l s ls : ~ In 10 l -> text_lines s ls -> text_lines (l ++ 10 :: s) (l :: ls).

(** The directive [#define]. *)
Definition a_directive (t after : text) : Prop :=
  t = [35; 100; 101; 102; 105; 110; 101] ++ after /\ (after = [] \/ exists c r, after = c :: r /\ space c).

Definition defining (env : text -> option macro) (name : text) (d : macro) : text -> option macro :=
  fun n => if text_eqb name n then Some d else env n.

(** [reads parse env lines env' raw]: the lines define the macros that turn [env] into [env'] (a later
    definition replaces an earlier one) and consist otherwise of the tokens [raw]. *)
Inductive reads (parse : text -> option Z) : (text -> option macro) -> list text -> (text -> option macro) -> list tok -> Prop :=
| Rd_nil env : reads parse env [] env []
| Rd_define env l t after name d ls env' raw :
    stripped l t -> a_directive t after -> defines parse after name d ->
    reads parse (defining env name d) ls env' raw -> reads parse env (l :: ls) env' raw
| Rd_code env l t ts ls env' raw :
    stripped l t -> (forall after, ~ a_directive t after) -> code_tokens parse t ts ->
    reads parse env ls env' raw -> reads parse env (l :: ls) env' (ts ++ raw).

(** What a name stands for before any definition: [RET_WORD] returns the word on the stack. *)
Definition predefined (n : text) : option macro :=
  let op w := Tok w KIdent in
  if text_eqb [82; 69; 84; 95; 87; 79; 82; 68] n
  then Some (Macro false [] [op [80; 85; 83; 72; 48]; op [77; 83; 84; 79; 82; 69]; op [80; 85; 83; 72; 49];
                             Tok [48; 120; 50; 48] (KNumber 32); op [80; 85; 83; 72; 48]; op [82; 69; 84; 85; 82; 78]])
  else None.
