(** Proofs about the listing. *)
From Verif Require Export ListSpec.
From Coq Require Permutation.

(** ** The map *)
Lemma set_length : forall m i x, List.length (set m i x) = List.length m.
Proof. induction m as [|y m IH]; intros [|i] x; cbn; auto. Qed.
Lemma set_same : forall m i x, i < List.length m -> nth i (set m i x) 0 = x.
Proof. induction m as [|y m IH]; intros [|i] x H; cbn in *; try lia; auto. apply IH. lia. Qed.
Lemma set_other : forall m i j x, i <> j -> nth j (set m i x) 0 = nth j m 0.
Proof. induction m as [|y m IH]; intros [|i] [|j] x H; cbn; auto; try lia. Qed.

(** [done] are the instructions met so far. *)
Definition inv (L : bytecode) (done : list nat) (st : lines_t * list nat) : Prop :=
  List.length (snd st) = l_n L
  /\ (forall i, In i done -> l_dead L i = false -> exists k, nth i (snd st) 0 = S k /\ nth_error (fst st) k = Some (inst_text L i, inst_comment L i))
  /\ (forall i, ~ (In i done /\ l_dead L i = false) -> nth i (snd st) 0 = 0)
  /\ (forall i, nth i (snd st) 0 <= List.length (fst st))
  /\ (forall i j, nth i (snd st) 0 <> 0 -> nth i (snd st) 0 = nth j (snd st) 0 -> i = j).

Lemma inv_lines : forall L done lines m more, inv L done (lines, m) -> inv L done (lines ++ more, m).
Proof.
  intros L done lines m more (A & B & C & D & E). cbn [fst snd] in *. split; [exact A|]. split; [|split; [exact C|split; [|exact E]]].
  - intros i Hi Hd. destruct (B i Hi Hd) as (k & Hk & Hn). exists k. split; [exact Hk|]. cbn. rewrite nth_error_app1; [exact Hn|].
    apply nth_error_Some. rewrite Hn. discriminate.
  - intros i. cbn. rewrite app_length. specialize (D i). lia.
Qed.
Lemma inv_inst : forall L done st i, inv L done st -> ~ In i done -> i < l_n L -> inv L (i :: done) (add_inst L st i).
Proof.
  intros L done [lines m] i H Hn Hi. unfold add_inst. destruct (l_dead L i) eqn:Ed.
  - destruct H as (A & B & C & D & E). cbn [fst snd] in *. split; [exact A|]. split; [|split; [|split; assumption]].
    + intros j [<- | Hj] Hd; [rewrite Ed in Hd; discriminate | exact (B j Hj Hd)].
    + intros j Hj. apply C. intros [K1 K2]. apply Hj. split; [right; exact K1 | exact K2].
  - destruct H as (A & B & C & D & E). cbn [fst snd] in *.
    assert (S0 : nth i (set m i (List.length lines + 1)) 0 = S (List.length lines)) by (rewrite set_same by lia; lia).
    split; [cbn; rewrite set_length; exact A|]. split; [|split; [|split]]; cbn [fst snd].
    + intros j Hj Hd. destruct (Nat.eq_dec i j) as [<- | N].
      * exists (List.length lines). split; [exact S0|]. rewrite nth_error_app2 by lia. rewrite Nat.sub_diag. reflexivity.
      * destruct Hj as [K | Hj]; [contradiction|]. destruct (B j Hj Hd) as (k & Hk & Hl). exists k. rewrite set_other by exact N. split; [exact Hk|].
        rewrite nth_error_app1; [exact Hl|]. apply nth_error_Some. rewrite Hl. discriminate.
    + intros j Hj. destruct (Nat.eq_dec i j) as [<- | N]; [exfalso; apply Hj; split; [left; reflexivity | exact Ed]|].
      rewrite set_other by exact N. apply C. intros [K1 K2]. apply Hj. split; [right; exact K1 | exact K2].
    + intros j. rewrite app_length. cbn [List.length]. destruct (Nat.eq_dec i j) as [<- | N]; [rewrite S0; lia|]. rewrite set_other by exact N. specialize (D j). lia.
    + intros j k. destruct (Nat.eq_dec i j) as [<- | Nj]; destruct (Nat.eq_dec i k) as [<- | Nk]; auto.
      * rewrite S0, set_other by exact Nk. intros _ Q. pose proof (D k). lia.
      * rewrite S0, set_other by exact Nj. intros _ Q. pose proof (D j). lia.
      * rewrite !set_other by assumption. apply E.
Qed.
Lemma inv_insts : forall L l done st, inv L done st -> NoDup (l ++ done) -> (forall i, In i l -> i < l_n L) -> inv L (rev l ++ done) (fold_left (add_inst L) l st).
Proof.
  intros L. induction l as [|i l IH]; intros done st H HD HL; [exact H|]. cbn [fold_left rev]. rewrite <- app_assoc. cbn [app].
  cbn [app] in HD. inversion HD as [|? ? N1 N2]; subst. apply IH.
  - apply inv_inst; [exact H | intros K; apply N1; apply in_or_app; right; exact K | apply HL; left; reflexivity].
  - apply NoDup_Add with (a := i) (l := l ++ done); [|split; [exact N2 | exact N1]].
    apply Add_app.
  - intros j Hj. apply HL. right; exact Hj.
Qed.
Lemma blank_more : forall lines, exists more, add_blank lines = lines ++ more /\ (more = [] \/ more = [([], [])]).
Proof.
  intros lines. unfold add_blank. destruct (rev lines) as [|[t c] r]; [exists []; rewrite app_nil_r; auto|].
  destruct (_ || _); [exists [([], [])]; auto | exists []; rewrite app_nil_r; auto].
Qed.
Lemma inv_same : forall L d d' st, (forall i, In i d <-> In i d') -> inv L d st -> inv L d' st.
Proof.
  intros L d d' st H (A & B & C & D & E). split; [exact A|]. split; [|split; [|split; assumption]].
  - intros i Hi. apply B. apply H. exact Hi.
  - intros i Hi. apply C. rewrite H. exact Hi.
Qed.
Lemma inv_blocks : forall L bs done st, inv L done st -> NoDup (flat_map b_insts bs ++ done) ->
  (forall b i, In b bs -> In i (b_insts b) -> i < l_n L) -> inv L (rev (flat_map b_insts bs) ++ done) (fold_left (add_block L) bs st).
Proof.
  intros L. induction bs as [|b bs IH]; intros done [lines m] H HD HL; [exact H|]. cbn [fold_left flat_map] in *.
  rewrite rev_app_distr, <- app_assoc.
  assert (HD2 : NoDup (flat_map b_insts bs ++ rev (b_insts b) ++ done)).
  { apply (Permutation.Permutation_NoDup (l := (b_insts b ++ flat_map b_insts bs) ++ done)); [|exact HD].
    rewrite app_assoc. apply Permutation.Permutation_app_tail. rewrite Permutation.Permutation_app_comm.
    apply Permutation.Permutation_app_head. apply Permutation.Permutation_rev. }
  apply IH; [|exact HD2 | intros b' i Hb; apply HL; right; exact Hb].
  cbn [add_block]. apply inv_insts.
  - destruct (blank_more lines) as (more & -> & _). rewrite <- app_assoc. apply inv_lines. exact H.
  - apply (Permutation.Permutation_NoDup (l := rev (b_insts b) ++ done)).
    + apply Permutation.Permutation_app_tail. symmetry. apply Permutation.Permutation_rev.
    + clear -HD2. induction (flat_map b_insts bs) as [|x l IHl]; [exact HD2|]. inversion HD2; subst. apply IHl. assumption.
  - intros i Hi. apply (HL b); [left; reflexivity | exact Hi].
Qed.
Lemma nth_repeat0 : forall n i, nth i (repeat 0 n) 0 = 0.
Proof. induction n as [|n IH]; intros [|i]; cbn; auto. Qed.
Lemma inv_collect : forall L, good L -> inv L (rev (flat_map b_insts (l_blocks L))) (collect_lines L).
Proof.
  intros L (HD & HL & _). unfold collect_lines. rewrite <- (app_nil_r (rev _)). apply inv_blocks.
  - split; [cbn; apply repeat_length|]. cbn [fst snd]. split; [intros i []|]. split; [|split].
    + intros i _. apply nth_repeat0.
    + intros i. rewrite nth_repeat0. lia.
    + intros i j K. exfalso. apply K. apply nth_repeat0.
  - rewrite app_nil_r. exact HD.
  - exact HL.
Qed.
Lemma listed_in : forall L i, listed L i <-> In i (rev (flat_map b_insts (l_blocks L))) /\ l_dead L i = false.
Proof.
  intros L i. unfold listed. rewrite <- in_rev, in_flat_map. split; [intros (A & b & B & C) | intros ((b & B & C) & A)].
  - split; [exists b; split; assumption | exact A].
  - split; [exact A | exists b; split; assumption].
Qed.

(** ** The text *)
Lemma clean_app : forall a b, clean a -> clean b -> clean (a ++ b).
Proof. intros a b A B c H. apply in_app_or in H. destruct H; [apply A | apply B]; assumption. Qed.
Definition cleanb (t : text) : bool := forallb (fun c => negb (Ascii.eqb c nl) && negb (Ascii.eqb c cr)) t.
Lemma cleanb_ok : forall t, cleanb t = true -> clean t.
Proof.
  intros t H c Hc. unfold cleanb in H. rewrite forallb_forall in H. specialize (H c Hc). apply andb_true_iff in H. destruct H as [A B].
  split; intros ->; [rewrite Ascii.eqb_refl in A; discriminate A | rewrite Ascii.eqb_refl in B; discriminate B].
Qed.
Lemma blank_repeat : forall n, blank (repeat sp n).
Proof. intros n c H. apply repeat_spec in H. exact H. Qed.
Lemma clean_blank : forall t, blank t -> clean t.
Proof. intros t H c Hc. rewrite (H c Hc). split; discriminate. Qed.
Lemma clean_uint : forall u, clean (lit (NilEmpty.string_of_uint u)).
Proof.
  induction u; intros c H; cbn in H; try contradiction; destruct H as [<- | H]; try (split; discriminate); apply IHu; exact H.
Qed.
Lemma clean_dec : forall n, clean (dec n).
Proof. intros n. apply clean_uint. Qed.
Definition clean2 (l : text * text) : Prop := clean (fst l) /\ clean (snd l).
Lemma clean_nil : clean [].
Proof. intros c []. Qed.
Lemma clean_line : forall col l, clean2 l -> clean (line col l).
Proof.
  intros col [t c] [A B]. unfold line. destruct (is_nil t && is_nil c); [apply clean_nil|]. destruct (is_nil c); [exact A|].
  destruct (is_nil t).
  - apply clean_app; [apply cleanb_ok; reflexivity | exact B].
  - unfold pad_right. repeat apply clean_app; try assumption; [apply clean_blank, blank_repeat | apply cleanb_ok; reflexivity].
Qed.
Lemma clean_inst : forall L i, good L -> clean2 (inst_text L i, inst_comment L i).
Proof.
  intros L i (_ & _ & _ & _ & _ & A & B). split; cbn [fst snd].
  - apply clean_app; [apply cleanb_ok; reflexivity | apply A].
  - unfold inst_comment, pad_left. repeat apply clean_app; try apply clean_dec; try (apply clean_blank, blank_repeat); try apply B; apply cleanb_ok; reflexivity.
Qed.
Lemma clean_collect : forall L, good L -> forall l, In l (fst (collect_lines L)) -> clean2 l.
Proof.
  intros L HG. assert (HG' := HG). destruct HG' as (_ & _ & H1 & H2 & HB & _).
  assert (I : forall is st, (forall l, In l (fst st) -> clean2 l) -> forall l, In l (fst (fold_left (add_inst L) is st)) -> clean2 l).
  { induction is as [|i is IH]; intros [lines m] H; [exact H|]. cbn [fold_left]. apply IH. unfold add_inst. destruct (l_dead L i); [exact H|].
    cbn [fst]. intros l Hl. apply in_app_or in Hl. destruct Hl as [Hl | [<- | []]]; [apply H; exact Hl | apply clean_inst; exact HG]. }
  assert (B : forall bs st, (forall b, In b bs -> clean (b_header b) /\ clean (b_comment b)) -> (forall l, In l (fst st) -> clean2 l) ->
    forall l, In l (fst (fold_left (add_block L) bs st)) -> clean2 l).
  { induction bs as [|b bs IH]; intros [lines m] Hb H; [exact H|]. cbn [fold_left]. apply IH; [intros b' K; apply Hb; right; exact K|].
    cbn [add_block]. apply I. cbn [fst]. destruct (blank_more lines) as (more & -> & Hm). intros l Hl.
    apply in_app_or in Hl. destruct Hl as [Hl | [<- | []]]; [|apply Hb; left; reflexivity].
    apply in_app_or in Hl. destruct Hl as [Hl | Hl]; [apply H; exact Hl|]. destruct Hm as [-> | ->]; [destruct Hl|].
    destruct Hl as [<- | []]. split; apply clean_nil. }
  apply B; [exact HB|]. cbn [fst]. intros l [<- | [<- | [<- | []]]]; split; cbn [fst snd]; try assumption; apply clean_nil.
Qed.

Lemma strip_clean : forall t, clean t -> strip_cr t = t.
Proof.
  intros t H. unfold strip_cr. destruct (rev t) as [|c r] eqn:E; [reflexivity|]. destruct (Ascii.eqb_spec c cr) as [-> | N]; [|reflexivity].
  exfalso. apply (proj2 (H cr ltac:(rewrite in_rev, E; left; reflexivity))). reflexivity.
Qed.
Lemma lines_from_line : forall t cur rest, clean t -> clean (rev cur) -> lines_from cur (t ++ nl :: rest) = (rev cur ++ t) :: lines_from [] rest.
Proof.
  induction t as [|c t IH]; intros cur rest H HC.
  - cbn [app lines_from]. rewrite Ascii.eqb_refl, app_nil_r, strip_clean by exact HC. reflexivity.
  - cbn [app lines_from]. destruct (Ascii.eqb_spec c nl) as [-> | N]; [exfalso; apply (proj1 (H nl (or_introl eq_refl))); reflexivity|].
    rewrite IH.
    + cbn [rev]. rewrite <- app_assoc. reflexivity.
    + intros x Hx. apply H. right; exact Hx.
    + cbn [rev]. apply clean_app; [exact HC|]. intros x [<- | []]. apply H. left; reflexivity.
Qed.
Lemma lines_of_lines : forall (f : text * text -> text) ls, (forall l, In l ls -> clean (f l)) -> lines_of (flat_map (fun l => f l ++ [nl]) ls) = map f ls.
Proof.
  intros f ls. unfold lines_of. induction ls as [|l ls IH]; intros H; [reflexivity|]. cbn [flat_map map]. rewrite <- app_assoc. cbn [app].
  rewrite lines_from_line; [|apply H; left; reflexivity | apply clean_nil]. cbn [rev app]. rewrite IH; [reflexivity|]. intros x Hx. apply H. right; exact Hx.
Qed.
Lemma lines_of_listing : forall L, good L -> lines_of (display_plain L) = map (line (comment_col (fst (collect_lines L)))) (fst (collect_lines L)).
Proof. intros L H. unfold display_plain. apply lines_of_lines. intros l Hl. apply clean_line. apply (clean_collect L H l Hl). Qed.
Lemma line_shows : forall L i col, shows L i (line col (inst_text L i, inst_comment L i)).
Proof.
  intros L i col. unfold line, inst_text, inst_comment, pad_left, pad_right.
  exists (repeat sp (col - List.length (lit "  " ++ l_op L i))), (repeat sp (ic_width L - List.length (dec i))), (repeat sp (pc_width L - List.length (dec (l_pc L i)))).
  split; [apply blank_repeat|]. split; [apply blank_repeat|]. split; [apply blank_repeat|].
  cbn [lit list_ascii_of_string app is_nil andb]. rewrite <- ?app_assoc. cbn [app]. rewrite <- ?app_assoc. reflexivity.
Qed.

(** ** White space *)
Lemma space_white : forall c, is_space c = true <-> white [c].
Proof.
  intros c. unfold white, is_space. cbn zeta. split.
  - intros H x [<- | []]. apply orb_true_iff in H. destruct H as [H | H].
    + apply Nat.eqb_eq in H. left. symmetry; exact H.
    + apply andb_true_iff in H. destruct H as [A B]. apply Nat.leb_le in A. apply Nat.leb_le in B. cbn [In]. lia.
  - intros H. specialize (H c (or_introl eq_refl)). cbn [In] in H. apply orb_true_iff.
    destruct (Nat.eq_dec (nat_of_ascii c) 32) as [E | N]; [left; apply Nat.eqb_eq; exact E|]. right. apply andb_true_iff. rewrite !Nat.leb_le. lia.
Qed.
Lemma white_cons : forall c t, white [c] -> white t -> white (c :: t).
Proof. intros c t A B x [<- | H]; [apply A; left; reflexivity | apply B; exact H]. Qed.
Lemma white_rev : forall t, white t -> white (rev t).
Proof. intros t H c Hc. apply H. rewrite in_rev. exact Hc. Qed.
Lemma trim_start_spec : forall t, exists u, t = u ++ trim_start t /\ white u /\ forall c t', trim_start t = c :: t' -> ~ white [c].
Proof.
  induction t as [|c t (u & E & W & F)]; [exists []; split; [reflexivity|]; split; [intros c [] | intros c t' H; discriminate H]|].
  cbn [trim_start]. destruct (is_space c) eqn:S0.
  - exists (c :: u). split; [cbn [app]; f_equal; exact E|]. split; [apply white_cons; [apply space_white; exact S0 | exact W] | exact F].
  - exists []. split; [reflexivity|]. split; [intros x []|]. intros x t' H. injection H as <- <-. intros K. apply space_white in K. rewrite K in S0. discriminate S0.
Qed.
Lemma trim_spec : forall t, trimmed t (trim t).
Proof.
  intros t. destruct (trim_start_spec t) as (u & E & W & F). unfold trim. destruct (trim_start_spec (rev (trim_start t))) as (v & E2 & W2 & F2).
  set (r := trim_start (rev (trim_start t))) in *. apply (f_equal (@rev ascii)) in E2. rewrite rev_involutive, rev_app_distr in E2.
  exists u, (rev v). split; [rewrite <- E2; exact E|]. split; [exact W|]. split; [apply white_rev; exact W2|]. split.
  - intros c t' H. apply (F c (t' ++ rev v)). rewrite E2, H. reflexivity.
  - intros c t' H. apply (F2 c (rev t')). apply (f_equal (@rev ascii)) in H. rewrite rev_involutive, rev_app_distr in H. exact H.
Qed.
Lemma trimmed_nonempty : forall l t c, trimmed l t -> In c l -> ~ white [c] -> t <> [].
Proof.
  intros l t c (u & v & E & U & V & _) Hc HN ->. cbn in E. apply HN. intros x [<- | []]. rewrite E in Hc. apply in_app_or in Hc.
  destruct Hc as [Hc | Hc]; [apply U | apply V]; exact Hc.
Qed.

(** ** Abbreviated constants *)
Lemma find_spec : forall s p h, find_0x s = Some (p, h) -> s = p ++ lit "0x" ++ h.
Proof.
  induction s as [|a s IH]; intros p h H; [discriminate H|]. cbn [find_0x] in H. destruct s as [|b s]; [discriminate H|].
  destruct (Ascii.eqb a "0" && Ascii.eqb b "x") eqn:E.
  - injection H as <- <-. apply andb_true_iff in E. destruct E as [A B]. apply Ascii.eqb_eq in A, B. subst. reflexivity.
  - destruct (find_0x (b :: s)) as [[p' h']|]; [|discriminate H]. injection H as <- <-. cbn [app]. f_equal. apply (IH p' h' eq_refl).
Qed.
Lemma two_step : forall (P : text -> Prop), P [] -> (forall a, P [a]) -> (forall a b t, P t -> P (a :: b :: t)) -> forall t, P t.
Proof.
  intros P P0 P1 P2. assert (K : forall t, P t /\ forall a, P (a :: t)).
  { induction t as [|a t [IH1 IH2]]; [split; assumption|]. split; [apply IH2|]. intros b. apply P2. exact IH1. }
  intros t. apply K.
Qed.
Lemma run_spec : forall x y h, h = pairs (run_len x y h) [x; y] ++ skipn (run_len x y h * 2) h
  /\ forall t, skipn (run_len x y h * 2) h <> x :: y :: t.
Proof.
  intros x y h. pattern h. apply two_step; clear h.
  - split; [reflexivity | intros t H; discriminate H].
  - intros a. split; [reflexivity | intros t H; discriminate H].
  - intros a b t [IH1 IH2]. cbn [run_len]. destruct (Ascii.eqb a x && Ascii.eqb b y) eqn:E.
    + apply andb_true_iff in E. destruct E as [A B]. apply Ascii.eqb_eq in A, B. subst. cbn [pairs Nat.mul Nat.add skipn app]. split; [do 2 f_equal; exact IH1 | exact IH2].
    + split; [reflexivity|]. intros t' H. cbn in H. injection H as -> -> _. rewrite !Ascii.eqb_refl in E. discriminate E.
Qed.
Lemma abbreviate_spec : forall s, abbreviate_hex s = s \/
  exists pre x y r suf, r >= 4 /\ s = pre ++ lit "0x" ++ pairs r [x; y] ++ suf /\ (forall t, suf <> x :: y :: t)
  /\ abbreviate_hex s = pre ++ lit "0x" ++ [x; y] ++ lit ".." ++ suf.
Proof.
  intros s. unfold abbreviate_hex. destruct (find_0x s) as [[pre h]|] eqn:EF; [|left; reflexivity]. apply find_spec in EF.
  destruct (List.length h <? 8); [left; reflexivity|]. destruct h as [|x [|y h]]; try (left; reflexivity).
  destruct (run_len x y (x :: y :: h) <? 4) eqn:E; [left; reflexivity|]. apply Nat.ltb_ge in E. right.
  destruct (run_spec x y (x :: y :: h)) as [R1 R2]. remember (run_len x y (x :: y :: h)) as r.
  exists pre, x, y, r, (skipn (r * 2) (x :: y :: h)). split; [exact E|]. split; [rewrite <- R1; exact EF|]. split; [exact R2 | reflexivity].
Qed.
Lemma split_dot : forall (a a' b b' : text) c, ~ In c a -> ~ In c a' -> a ++ c :: b = a' ++ c :: b' -> a = a' /\ b = b'.
Proof.
  induction a as [|x a IH]; intros a' b b' c H H' E.
  - destruct a' as [|x' a']; [injection E as E; auto|]. injection E as -> _. exfalso. apply H'. left; reflexivity.
  - destruct a' as [|x' a']; [injection E as -> _; exfalso; apply H; left; reflexivity|]. injection E as -> E.
    destruct (IH a' b b' c) as [-> ->]; auto; intros K; [apply H | apply H']; right; exact K.
Qed.
Lemma pairs_length : forall r p, List.length (pairs r p) = r * List.length p.
Proof. induction r as [|r IH]; intros p; [reflexivity|]. cbn [pairs]. rewrite app_length, IH. reflexivity. Qed.
Lemma app_eq_len : forall (a a' b b' : text), List.length b = List.length b' -> a ++ b = a' ++ b' -> a = a' /\ b = b'.
Proof.
  intros a a' b b' H E. assert (L : List.length a = List.length a') by (apply (f_equal (@List.length ascii)) in E; rewrite !app_length in E; lia).
  clear H. revert a' L E. induction a as [|x a IH]; intros [|x' a'] L E; try discriminate L; [split; [reflexivity | exact E]|].
  injection E as -> E. injection L as L. destruct (IH a' L E) as [-> ->]. auto.
Qed.
