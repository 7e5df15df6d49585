(** Proofs about macro definitions and invocations. *)
From Coq Require Import ZifyBool.
From Verif Require Export TokProof.

(** ** Arguments *)
Lemma read_args_group g : group g -> forall d cur done ts,
  read_args (S (S d)) cur done (g ++ ts) = read_args (S (S d)) (cur ++ g) done ts.
Proof.
  induction 1 as [| t g NP _ IH | l g r g' L _ IHg R _ IHg']; intros d cur done ts.
  - rewrite app_nil_r. reflexivity.
  - cbn [app read_args]. replace (cur ++ t :: g) with ((cur ++ [t]) ++ g) by (rewrite <- app_assoc; reflexivity).
    rewrite <- IH. unfold paren in NP. destruct (t_kind t); try reflexivity; destruct NP; auto.
  - cbn [app read_args]. rewrite L, <- app_assoc. cbn [app]. rewrite IHg. cbn [read_args]. rewrite R, IHg'.
    f_equal. rewrite <- !app_assoc. reflexivity.
Qed.

Lemma read_args_argument a : argument a -> forall cur done ts,
  read_args 1 cur done (a ++ ts) = read_args 1 (cur ++ a) done ts.
Proof.
  induction 1 as [| t a NP NC _ IH | l g r a L G R _ IH]; intros cur done ts.
  - rewrite app_nil_r. reflexivity.
  - cbn [app read_args]. replace (cur ++ t :: a) with ((cur ++ [t]) ++ a) by (rewrite <- app_assoc; reflexivity).
    rewrite <- IH. unfold paren in NP. destruct (t_kind t); try reflexivity; [congruence | |]; destruct NP; auto.
  - cbn [app read_args]. rewrite L, <- app_assoc. cbn [app]. rewrite (read_args_group _ G). cbn [read_args].
    rewrite R, IH. f_equal. rewrite <- !app_assoc. reflexivity.
Qed.

Lemma read_args_complete inside args : separated inside args -> forall done r ts, t_kind r = KRParen ->
  read_args 1 [] done (inside ++ r :: ts) = Some (done ++ args, ts).
Proof.
  induction 1 as [a A | a c ts0 args A C _ IH]; intros done r ts R.
  - rewrite (read_args_argument _ A). cbn [read_args app]. rewrite R. reflexivity.
  - rewrite <- app_assoc. cbn [app]. rewrite (read_args_argument _ A). cbn [read_args app]. rewrite C. cbn [Nat.eqb].
    rewrite (IH _ _ _ R), <- app_assoc. reflexivity.
Qed.

(** Inside a nested parenthesis: the tokens up to the matching one. *)
Lemma read_args_inner : forall n ts d cur done x, (length ts <= n)%nat ->
  read_args (S (S d)) cur done ts = Some x ->
  exists g r ts', ts = g ++ r :: ts' /\ group g /\ t_kind r = KRParen /\
                  read_args (S d) (cur ++ g ++ [r]) done ts' = Some x.
Proof.
  induction n as [| n IH]; intros ts d cur done x L H.
  - destruct ts; [discriminate H | cbn in L; lia].
  - destruct ts as [| t ts]; [discriminate H |]. cbn [length] in L.
    assert (STEP : ~ paren t -> read_args (S (S d)) (cur ++ [t]) done ts = Some x ->
              exists g r ts', t :: ts = g ++ r :: ts' /\ group g /\ t_kind r = KRParen /\
                  read_args (S d) (cur ++ g ++ [r]) done ts' = Some x).
    { intros NP R. destruct (IH ts d _ _ _ ltac:(lia) R) as (g & r & ts' & -> & G & K & E).
      exists (t :: g), r, ts'. repeat split; [constructor; assumption | exact K |].
      rewrite <- app_assoc in E. exact E. }
    unfold paren in STEP. cbn [read_args] in H. destruct (t_kind t) eqn:K;
      try (apply STEP; [intros [Q | Q]; discriminate Q | exact H]).
    + destruct (IH ts _ _ _ _ ltac:(lia) H) as (g & r & ts' & -> & G & R & E).
      rewrite app_length in L. cbn [length] in L.
      destruct (IH ts' d _ _ _ ltac:(lia) E) as (g' & r' & ts'' & -> & G' & R' & E').
      exists (t :: g ++ r :: g'), r', ts''. repeat split.
      * cbn. rewrite <- app_assoc. reflexivity.
      * apply Grp_paren; assumption.
      * exact R'.
      * rewrite <- E'. f_equal. rewrite <- !app_assoc. cbn. rewrite <- app_assoc. reflexivity.
    + exists [], t, ts. repeat split; [constructor | exact K | exact H].
Qed.

Lemma argument_cons_app l g r a : t_kind l = KLParen -> group g -> t_kind r = KRParen -> argument a ->
  argument ((l :: g ++ [r]) ++ a).
Proof.
  intros L G R A. replace ((l :: g ++ [r]) ++ a) with (l :: g ++ r :: a).
  - apply Arg_paren; assumption.
  - cbn. rewrite <- app_assoc. reflexivity.
Qed.

(** [separated] with the first argument started. *)
Lemma read_args_sound : forall n ts cur done args rest, (length ts <= n)%nat ->
  read_args 1 cur done ts = Some (args, rest) ->
  exists a inside tl r, ts = inside ++ r :: rest /\ t_kind r = KRParen /\ argument a /\
    args = done ++ (cur ++ a) :: tl /\
    (inside = a /\ tl = [] \/ exists c more, inside = a ++ c :: more /\ t_kind c = KComma /\ separated more tl).
Proof.
  induction n as [| n IH]; intros ts cur done args rest L H.
  - destruct ts; [discriminate H | cbn in L; lia].
  - destruct ts as [| t ts]; [discriminate H |]. cbn [length] in L.
    assert (STEP : forall pre ts0, (length ts0 <= n)%nat ->
       (forall a, argument a -> argument (pre ++ a)) ->
       read_args 1 (cur ++ pre) done ts0 = Some (args, rest) -> t :: ts = pre ++ ts0 ->
       exists a inside tl r, t :: ts = inside ++ r :: rest /\ t_kind r = KRParen /\ argument a /\
         args = done ++ (cur ++ a) :: tl /\
         (inside = a /\ tl = [] \/ exists c more, inside = a ++ c :: more /\ t_kind c = KComma /\ separated more tl)).
    { intros pre ts0 L0 P R Q. destruct (IH _ _ _ _ _ L0 R) as (a & inside & tl & r & -> & RK & A & -> & D).
      exists (pre ++ a), (pre ++ inside), tl, r. rewrite Q, <- !app_assoc. repeat split; [exact RK | apply P, A |].
      destruct D as [[-> ->] | (c & more & -> & C & S)]; [left; split; reflexivity |].
      right. exists c, more. rewrite <- app_assoc. repeat split; assumption. }
    cbn [read_args] in H. destruct (t_kind t) eqn:K;
      try (apply (STEP [t] ts); [lia | intros a A; apply Arg_tok; [intros [Q | Q]; congruence | congruence | exact A] | exact H | reflexivity]).
    + (* comma *) cbn [Nat.eqb] in H.
      destruct (IH ts _ _ _ _ ltac:(lia) H) as (a & inside & tl & r & -> & RK & A & -> & D).
      exists [], (t :: inside), (a :: tl), r. repeat split; [exact RK | constructor | rewrite app_nil_r, <- app_assoc; reflexivity |].
      right. exists t, inside. repeat split; [exact K |].
      destruct D as [[-> ->] | (c & more & -> & C & S)]; constructor; assumption.
    + (* open *) destruct (read_args_inner _ _ _ _ _ _ (le_n _) H) as (g & r & ts' & -> & G & R & E).
      rewrite app_length in L. cbn [length] in L.
      apply (STEP (t :: g ++ [r]) ts'); [lia | intros a A; apply argument_cons_app; assumption | | cbn; rewrite <- app_assoc; reflexivity].
      rewrite <- app_assoc in E. exact E.
    + (* close *) injection H as <- <-. exists [], [], [], t. rewrite app_nil_r.
      repeat split; [exact K | constructor | left; split; reflexivity].
Qed.

Lemma read_args_spec ts args rest :
  read_args 1 [] [] ts = Some (args, rest) <->
  exists inside r, ts = inside ++ r :: rest /\ t_kind r = KRParen /\ separated inside args.
Proof.
  split.
  - intros H. destruct (read_args_sound _ _ _ _ _ _ (le_n _) H) as (a & inside & tl & r & -> & RK & A & -> & D).
    exists inside, r. repeat split; [exact RK |]. cbn.
    destruct D as [[-> ->] | (c & more & -> & C & S)]; constructor; assumption.
  - intros (inside & r & -> & RK & S). apply (read_args_complete _ _ S [] r rest RK).
Qed.

Lemma separated_nonempty inside args : separated inside args -> args <> [].
Proof. intros []; discriminate. Qed.

Lemma arity_spec params args : arity_ok params args = true <-> passes params args.
Proof.
  unfold arity_ok. destruct params as [| p ps].
  - split.
    + destruct args as [| [| ] [| ]]; try (intros H; discriminate H). intros _. constructor.
    + intros H. inversion H; subst; [reflexivity | congruence].
  - split.
    + intros H. constructor; [discriminate | apply Nat.eqb_eq, H].
    + intros H. inversion H; subst. apply Nat.eqb_eq. assumption.
Qed.

Lemma text_eqb_spec a b : text_eqb a b = true <-> a = b.
Proof. unfold text_eqb. destruct (list_eq_dec Z.eq_dec a b); split; congruence. Qed.

Lemma arg_of_spec params : forall args p a, arg_of params args p = Some a <-> bound params args p a.
Proof.
  induction params as [| q ps IH]; intros args p a.
  - split; intros H; [discriminate H | inversion H].
  - destruct args as [| b ar]; [split; intros H; [discriminate H | inversion H] |]. cbn [arg_of].
    destruct (text_eqb q p) eqn:E.
    + apply text_eqb_spec in E. subst q. split.
      * intros [= <-]. constructor.
      * intros H. inversion H; subst; [reflexivity | congruence].
    + assert (N : q <> p) by (intros ->; rewrite (proj2 (text_eqb_spec p p) eq_refl) in E; discriminate E).
      split.
      * intros H. apply Bound_later; [exact N | apply IH, H].
      * intros H. inversion H; subst; [congruence | apply IH; assumption].
Qed.

Lemma substitute_spec params args body o : substitute params args body = o <-> instance params args body o.
Proof.
  revert o. induction body as [| t body IH]; intros o.
  - split; [intros <-; constructor | intros H; inversion H; reflexivity].
  - unfold substitute in *. cbn [flat_map]. split.
    + intros <-. destruct (t_kind t) eqn:K;
        try (apply Ins_keep; [intros Q; congruence | apply IH; reflexivity]).
      destruct (arg_of params args (t_src t)) as [a |] eqn:E.
      * apply Ins_param; [exact K | apply arg_of_spec, E | apply IH; reflexivity].
      * apply Ins_keep; [| apply IH; reflexivity]. intros _ a B. apply arg_of_spec in B. congruence.
    + intros H. inversion H as [| ? a ? o' K B I | ? ? o' N I]; subst.
      * rewrite K. apply arg_of_spec in B. rewrite B. f_equal. apply IH, I.
      * apply IH in I. rewrite I. destruct (t_kind t) eqn:K; try reflexivity.
        destruct (arg_of params args (t_src t)) as [a |] eqn:E; [| reflexivity].
        apply arg_of_spec in E. destruct (N eq_refl _ E).
Qed.

Lemma expand_sound m : forall fuel ts o, expand m fuel ts = Some o -> expands (lookup m) ts o.
Proof.
  induction fuel as [| f IH]; intros ts o H.
  - destruct ts; [| discriminate H]. injection H as <-. constructor.
  - destruct ts as [| t ts]; [injection H as <-; constructor |]. cbn [expand] in H.
    destruct (match t_kind t with KIdent => lookup m (t_src t) | _ => None end) as [d |] eqn:E.
    + destruct (t_kind t) eqn:K; try discriminate E. destruct (m_fn d) eqn:F.
      * destruct ts as [| [ls lk] ts1]; [discriminate H |]. destruct lk; try discriminate H.
        destruct (read_args 1 [] [] ts1) as [[args rest] |] eqn:R; [| discriminate H].
        destruct (arity_ok (m_params d) args) eqn:AR; [| discriminate H].
        destruct (expand m f rest) as [o' |] eqn:X; [| discriminate H]. injection H as <-.
        apply read_args_spec in R. destruct R as (inside & r & -> & RK & S).
        eapply (Exp_function _ t d (Tok ls KLParen) inside args r rest); try eassumption; try reflexivity.
        -- apply arity_spec, AR.
        -- apply substitute_spec. reflexivity.
        -- apply IH, X.
      * destruct (expand m f ts) as [o' |] eqn:X; [| discriminate H]. injection H as <-.
        apply Exp_object; try assumption. apply IH, X.
    + destruct (expand m f ts) as [o' |] eqn:X; [| discriminate H]. injection H as <-.
      apply Exp_keep; [| apply IH, X]. intros K. rewrite K in E. exact E.
Qed.

Lemma expand_complete m ts o : expands (lookup m) ts o -> forall fuel, (length ts <= fuel)%nat -> expand m fuel ts = Some o.
Proof.
  induction 1 as [| t ts o N _ IH | t d ts o K E F _ IH | t d l inside args r ts b o K E F L S R P I _ IH]; intros fuel LE.
  - destruct fuel; reflexivity.
  - destruct fuel as [| f]; [cbn in LE; lia |]. cbn [length] in LE. cbn [expand].
    replace (match t_kind t with KIdent => lookup m (t_src t) | _ => None end) with (@None macro).
    + rewrite IH by lia. reflexivity.
    + destruct (t_kind t); try reflexivity. symmetry. apply N. reflexivity.
  - destruct fuel as [| f]; [cbn in LE; lia |]. cbn [length] in LE. cbn [expand]. rewrite K, E, F, IH by lia. reflexivity.
  - destruct fuel as [| f]; [cbn in LE; lia |]. cbn [length] in LE. rewrite app_length in LE. cbn [length] in LE.
    cbn [expand]. rewrite K, E, F. destruct l as [ls lk]. cbn in L. subst lk.
    rewrite (proj2 (read_args_spec (inside ++ r :: ts) args ts)); [| exists inside, r; auto].
    rewrite (proj2 (arity_spec _ _) P), IH by lia. apply substitute_spec in I. rewrite I. reflexivity.
Qed.

Lemma expand_macros_spec m ts o : expand_macros m ts = Some o <-> expands (lookup m) ts o.
Proof.
  split; [apply expand_sound |]. intros H. apply (expand_complete _ _ _ H). lia.
Qed.

(** ** Definitions *)
Section Defs.
  Variable parse : text -> option Z.

  Lemma code_tokens_spec s ts : filter meaningful (tokenize parse s) = ts <-> code_tokens parse s ts.
  Proof.
    split.
    - intros <-. exists (tokenize parse s). split; [apply tokenize_spec; reflexivity | reflexivity].
    - intros (all & H & ->). apply tokenize_spec in H. rewrite H. reflexivity.
  Qed.

  Lemma meaningful_false t : meaningful t = false <-> t_kind t = KWhitespace \/ t_kind t = KComment.
  Proof. unfold meaningful. destruct (t_kind t); split; auto; try discriminate; intros [Q | Q]; discriminate Q. Qed.

  Lemma next_meaningful_sound : forall fuel s t rest, next_meaningful parse fuel s = Some (t, rest) ->
    exists w, skips parse s (w ++ rest) /\ lexeme parse w t rest /\ meaningful t = true.
  Proof.
    induction fuel as [| f IH]; intros s t rest H; [discriminate H |]. cbn in H.
    destruct (next parse s) as [[t1 r1] |] eqn:E; [| discriminate H].
    destruct (next_sound _ _ _ _ E) as (w & -> & _ & LX). destruct (meaningful t1) eqn:M.
    - injection H as <- <-. exists w. repeat split; [constructor | exact LX | exact M].
    - destruct (IH _ _ _ H) as (w' & SK & LX' & M'). exists w'. repeat split; [| exact LX' | exact M'].
      apply (Skip_more _ w t1); [exact LX | apply meaningful_false, M | exact SK].
  Qed.

  Lemma next_meaningful_complete s s' : skips parse s s' -> forall w t rest, s' = w ++ rest ->
    lexeme parse w t rest -> meaningful t = true ->
    forall fuel, (length s <= fuel)%nat -> next_meaningful parse fuel s = Some (t, rest).
  Proof.
    induction 1 as [s | w0 t0 r0 s' LX0 K0 _ IH]; intros w t rest -> LX M fuel L.
    - pose proof (next_complete _ _ _ _ LX) as E. pose proof (next_shorter _ _ _ _ E).
      destruct fuel as [| f]; [lia |]. cbn. rewrite E, M. reflexivity.
    - pose proof (next_complete _ _ _ _ LX0) as E. pose proof (next_shorter _ _ _ _ E).
      destruct fuel as [| f]; [lia |]. cbn. rewrite E, (proj2 (meaningful_false _) K0).
      apply (IH w t rest eq_refl LX M). lia.
  Qed.

  Lemma ident_inv w n rest : lexeme parse w (Tok n KIdent) rest ->
    w = n /\ a_name n /\ stops namechar rest /\ stops (fun c => c = 58) rest.
  Proof. intros H. inversion H; subst. auto. Qed.

  Lemma read_params_sound : forall n ts ps body, (length ts <= n)%nat ->
    read_params ts = Some (ps, body) -> parameters ts ps body.
  Proof.
    induction n as [| n IH]; intros ts ps body L H.
    - destruct ts; [discriminate H | cbn in L; lia].
    - destruct ts as [| [p pk] [| [c ck] ts]]; [discriminate H | destruct pk; discriminate H |].
      cbn [length] in L. cbn [read_params] in H. destruct pk; try discriminate H. destruct ck; try discriminate H.
      + destruct (read_params ts) as [[ps' b'] |] eqn:E; [| discriminate H]. injection H as <- <-.
        apply (Par_more (Tok p KIdent) (Tok c KComma)); [reflexivity | reflexivity |]. apply IH; [lia | exact E].
      + injection H as <- <-. apply (Par_last (Tok p KIdent) (Tok c KRParen)); reflexivity.
  Qed.

  Lemma read_params_complete ts ps body : parameters ts ps body -> read_params ts = Some (ps, body).
  Proof.
    induction 1 as [[p pk] [r rk] body P R | [p pk] [c ck] ts ps body P C _ IH]; cbn in *; subst; [reflexivity |].
    rewrite IH. reflexivity.
  Qed.

  Lemma lexes_paren rest all : lexes parse (40 :: rest) all -> exists ts, all = Tok [40] KLParen :: ts.
  Proof.
    intros H. apply tokenize_spec in H. subst all. unfold tokenize. cbn [length tokens].
    rewrite next_char by reflexivity. cbn. eexists. reflexivity.
  Qed.

  Lemma parse_define_sound after m m' : parse_define parse after m = Some m' ->
    exists name d, m' = (name, d) :: m /\ defines parse after name d.
  Proof.
    unfold parse_define. destruct (next_meaningful parse (length after) after) as [[[name k] rest] |] eqn:E; [| intros H; discriminate H].
    destruct k; try (intros H; discriminate H).
    destruct (next_meaningful_sound _ _ _ _ E) as (w & SK & LX & _).
    destruct (ident_inv _ _ _ LX) as (-> & NA & S1 & S2).
    destruct (filter meaningful (tokenize parse rest)) as [| t ts] eqn:T; apply code_tokens_spec in T.
    - (* no tokens after the name *)
      destruct (match rest with 40 :: _ => true | _ => false end) eqn:B.
      + exfalso. destruct rest as [| c rest]; [discriminate B |].
        assert (c = 40) as -> by (destruct c as [| c | c]; try discriminate B; do 6 (destruct c as [c | c |]; try discriminate B); reflexivity).
        destruct T as (all & LA & Q). destruct (lexes_paren _ _ LA) as (ts & ->). discriminate Q.
      + intros [= <-]. eexists _, _. split; [reflexivity |]. apply (Def_object _ _ name rest); try assumption.
        intros c r -> ->. discriminate B.
    - destruct (match rest with 40 :: _ => true | _ => false end) eqn:B.
      + destruct rest as [| c rest]; [discriminate B |].
        assert (c = 40) as -> by (destruct c as [| c | c]; try discriminate B; do 6 (destruct c as [c | c |]; try discriminate B); reflexivity).
        assert (t = Tok [40] KLParen) as ->.
        { destruct T as (all & LA & Q). destruct (lexes_paren _ _ LA) as (ts' & ->). cbn in Q. congruence. }
        assert (ARG : match read_params ts with
                      | Some (ps, body) => Some ((name, Macro true ps body) :: m)
                      | None => None
                      end = Some m' -> exists n d, m' = (n, d) :: m /\ defines parse after n d).
        { destruct (read_params ts) as [[ps body] |] eqn:P; [| intros H; discriminate H]. intros [= <-].
          eexists _, _. split; [reflexivity |]. apply (Def_args _ _ name rest (Tok [40] KLParen) ts); try assumption.
          apply (read_params_sound _ _ _ _ (le_n _) P). }
        destruct ts as [| [rs rk] ts]; [exact ARG |]. destruct rk; try exact ARG.
        intros [= <-]. eexists _, _. split; [reflexivity |].
        apply (Def_noargs _ _ name rest (Tok [40] KLParen) (Tok rs KRParen)); try assumption. reflexivity.
      + intros [= <-]. eexists _, _. split; [reflexivity |]. apply (Def_object _ _ name rest); try assumption.
        intros c r -> ->. discriminate B.
  Qed.

  Lemma parse_define_complete after m name d : defines parse after name d ->
    parse_define parse after m = Some ((name, d) :: m).
  Proof.
    unfold parse_define. intros [n rest body SK NA S1 S2 S3 T | n rest l r body SK NA T R | n rest l ts ps body SK NA T P].
    - rewrite (next_meaningful_complete _ _ SK n (Tok n KIdent) rest eq_refl); [| apply Lex_ident; assumption | reflexivity | lia].
      apply code_tokens_spec in T. rewrite T.
      replace (match rest with 40 :: _ => true | _ => false end) with false; [reflexivity |].
      destruct rest as [| c rest]; [reflexivity |]. specialize (S3 _ _ eq_refl).
      destruct c as [| c | c]; try reflexivity. do 6 (destruct c as [c | c |]; try reflexivity). destruct (S3 eq_refl).
    - rewrite (next_meaningful_complete _ _ SK n (Tok n KIdent) (40 :: rest) eq_refl); [| apply Lex_ident; try assumption; intros c x [= <- <-] Q; chars; lia | reflexivity | lia].
      pose proof T as (all & LA & Q). destruct (lexes_paren _ _ LA) as (ts' & ->). cbn in Q.
      assert (l = Tok [40] KLParen) as -> by congruence.
      apply code_tokens_spec in T. rewrite T. destruct r as [rs rk]. cbn in R. subst rk. reflexivity.
    - rewrite (next_meaningful_complete _ _ SK n (Tok n KIdent) (40 :: rest) eq_refl); [| apply Lex_ident; try assumption; intros c x [= <- <-] Q; chars; lia | reflexivity | lia].
      pose proof T as (all & LA & Q). destruct (lexes_paren _ _ LA) as (ts' & ->). cbn in Q.
      assert (l = Tok [40] KLParen) as -> by congruence.
      apply code_tokens_spec in T. rewrite T.
      pose proof (read_params_complete _ _ _ P) as RP. destruct P as [[p pk] r0 b PK RK | [p pk] c0 ts0 ps0 b PK CK _]; cbn in PK; subst pk; rewrite RP; reflexivity.
  Qed.

  (** ** Lines *)
  Lemma strip_front s : exists a, s = a ++ snd (span is_uws s) /\ Forall blank a /\ stops blank (snd (span is_uws s)).
  Proof.
    destruct (span is_uws s) as [a b] eqn:E. destruct (span_sound _ _ is_uws_spec _ _ _ E) as (-> & A & B).
    exists a. auto.
  Qed.

  Lemma trim_stripped l : stripped l (trim l).
  Proof.
    unfold trim. destruct (strip_front l) as (a & Q & A & S1). set (u := snd (span is_uws l)) in *.
    destruct (strip_front (rev u)) as (b & Q' & B & S2). set (v := snd (span is_uws (rev u))) in *.
    assert (U : u = rev v ++ rev b) by (rewrite <- (rev_involutive u), Q', rev_app_distr; reflexivity).
    exists a, (rev b). split; [rewrite <- U; exact Q |]. split; [exact A |].
    split; [apply Forall_rev, B |]. split.
    - intros c r E. apply (S1 c (r ++ rev b)). rewrite U, E. reflexivity.
    - intros t' c E. apply (S2 c (rev t')). rewrite <- (rev_involutive v), E, rev_app_distr. reflexivity.
  Qed.

  Lemma span_blank a s : Forall blank a -> stops blank s -> snd (span is_uws (a ++ s)) = s.
  Proof. intros A S. rewrite (span_complete _ _ is_uws_spec _ _ A S). reflexivity. Qed.

  Lemma stripped_trim l t : stripped l t -> trim l = t.
  Proof.
    intros (a & b & -> & A & B & S1 & S2). unfold trim.
    destruct t as [| c t].
    - cbn [app]. pose proof (span_blank (a ++ b) [] (proj2 (Forall_app _ _ _) (conj A B))) as Q.
      rewrite app_nil_r in Q. rewrite Q; [reflexivity |]. intros c r H. discriminate H.
    - rewrite (span_blank a); [| exact A |].
      + rewrite rev_app_distr, span_blank.
        * apply rev_involutive.
        * apply Forall_rev, B.
        * intros x r E. apply (S2 (rev r) x). rewrite <- (rev_involutive (c :: t)), E. reflexivity.
      + intros x r [= <- <-]. apply (S1 c t eq_refl).
  Qed.

  Lemma directive_spec t after : directive t = Some after <-> a_directive t after.
  Proof.
    unfold a_directive. split.
    - destruct (list_eq_dec Z.eq_dec (firstn 7 t) [35; 100; 101; 102; 105; 110; 101]) as [Q | Q].
      + pose proof (firstn_skipn 7 t) as F. rewrite Q in F. set (u := skipn 7 t) in *. clearbody u. subst t.
        cbn [app directive]. destruct u as [| c u]; [intros [= <-]; auto |].
        destruct (is_ws c) eqn:W; [| intros H; discriminate H]. intros [= <-].
        split; [reflexivity |]. right. exists c, u. split; [reflexivity | apply is_ws_spec, W].
      + intros H. exfalso. revert H Q. unfold directive.
        repeat match goal with
               | |- match ?x with _ => _ end = _ -> _ =>
                   destruct x; try (intros H; discriminate H)
               end; intros _ Q; apply Q; reflexivity.
    - intros [-> [-> | (c & r & -> & W)]]; [reflexivity |]. cbn. apply is_ws_spec in W. rewrite W. reflexivity.
  Qed.

  Lemma split_lines_sound s : forall cur, ~ In 10 cur -> text_lines (cur ++ s) (split_lines cur s).
  Proof.
    induction s as [| c s IH]; intros cur N; cbn [split_lines].
    - rewrite app_nil_r. destruct cur; [constructor | apply Lines_last; [discriminate | exact N]].
    - destruct (c =? 10) eqn:E.
      + assert (c = 10) as -> by lia. apply Lines_cons; [exact N |]. apply (IH []). intros [].
      + replace (cur ++ c :: s) with ((cur ++ [c]) ++ s) by (rewrite <- app_assoc; reflexivity).
        apply IH. rewrite in_app_iff. intros [H | [H | []]]; [exact (N H) | lia].
  Qed.

  Lemma split_line l : ~ In 10 l -> forall cur s, split_lines cur (l ++ s) = split_lines (cur ++ l) s.
  Proof.
    induction l as [| c l IH]; intros N cur s; cbn [app split_lines].
    - rewrite app_nil_r. reflexivity.
    - assert (c <> 10) by (intros ->; apply N; left; reflexivity). replace (c =? 10) with false by lia.
      rewrite IH; [rewrite <- app_assoc; reflexivity |]. intros H'. apply N. right. exact H'.
  Qed.

  Lemma split_lines_complete s ls : text_lines s ls -> split_lines [] s = ls.
  Proof.
    induction 1 as [| l NE N | l s ls N _ IH].
    - reflexivity.
    - rewrite <- (app_nil_r l) at 1. rewrite (split_line _ N). cbn. destruct l; [congruence | reflexivity].
    - rewrite (split_line _ N). cbn. rewrite IH. reflexivity.
  Qed.

  Definition code_of (kept : list text) : list tok := flat_map (fun l => filter meaningful (tokenize parse l)) kept.

  Lemma scan_sound : forall ls m m' kept, scan parse ls m = Some (m', kept) ->
    reads parse (lookup m) ls (lookup m') (code_of kept).
  Proof.
    induction ls as [| l ls IH]; intros m m' kept H; cbn [scan] in H.
    - injection H as <- <-. constructor.
    - destruct (directive (trim l)) as [after |] eqn:D.
      + destruct (parse_define parse after m) as [m1 |] eqn:P; [| discriminate H].
        destruct (parse_define_sound _ _ _ P) as (name & d & -> & DF).
        eapply Rd_define; [apply trim_stripped | apply directive_spec, D | exact DF |].
        apply IH in H. exact H.
      + destruct (scan parse ls m) as [[m1 kept1] |] eqn:E; [| discriminate H]. injection H as <- <-.
        cbn [code_of flat_map]. eapply Rd_code; [apply trim_stripped | | apply code_tokens_spec; reflexivity | apply IH, E].
        intros after A. apply directive_spec in A. congruence.
  Qed.

  Lemma scan_complete env ls env' raw : reads parse env ls env' raw -> forall m, env = lookup m ->
    exists m' kept, scan parse ls m = Some (m', kept) /\ lookup m' = env' /\ code_of kept = raw.
  Proof.
    induction 1 as [env | env l t after name d ls env' raw ST D DF _ IH | env l t ts ls env' raw ST ND T _ IH]; intros m ->.
    - exists m, []. auto.
    - cbn [scan]. rewrite (stripped_trim _ _ ST), (proj2 (directive_spec _ _) D), (parse_define_complete _ m _ _ DF).
      apply (IH ((name, d) :: m) eq_refl).
    - cbn [scan]. rewrite (stripped_trim _ _ ST). destruct (directive t) as [after |] eqn:D.
      + apply directive_spec in D. destruct (ND _ D).
      + destruct (IH m eq_refl) as (m' & kept & -> & L & C). exists m', (t :: kept). split; [reflexivity |].
        split; [exact L |]. cbn [code_of flat_map]. unfold code_of in C. rewrite C.
        apply code_tokens_spec in T. rewrite T. reflexivity.
  Qed.

  Lemma preprocess_spec s out : preprocess parse s = Some out <->
    exists ls env raw, text_lines s ls /\ reads parse predefined ls env raw /\ expands env raw out.
  Proof.
    unfold preprocess. split.
    - destruct (scan parse (split_lines [] s) builtin_macros) as [[m kept] |] eqn:E; [| intros H; discriminate H].
      intros H. apply expand_macros_spec in H. exists (split_lines [] s), (lookup m), (code_of kept).
      split; [apply (split_lines_sound s []); intros [] |]. split; [| exact H]. apply scan_sound in E. exact E.
    - intros (ls & env & raw & L & R & X). rewrite (split_lines_complete _ _ L).
      destruct (scan_complete _ _ _ _ R builtin_macros eq_refl) as (m & kept & -> & <- & C).
      apply expand_macros_spec. unfold code_of in C. rewrite C. exact X.
  Qed.
End Defs.
