(** Proof that dispatching frames to compiled programs does not change what the EVM does. *)
From Verif Require Export EvmSpec.

Section Proof.
  Context {rest gas finput finit fresult fdata host log ins tx txres : Type}.
  Variable R : @revm rest gas finput finit fresult fdata host log ins tx txres.
  Variable known : code -> Prop.
  Variable hash : code -> Z.
  Hypothesis PO : plain_ok R.
  Hypothesis CK : codes_known R known.
  Notation func := (@func rest gas finput host log).
  Notation frame := (@frame rest gas finput fdata).
  Notation world := (@world rest gas finput fdata host ins).

  (** The engine a hash is tied to: not yet, the interpreter, or a function. *)
  Definition ties := Z -> option (option func).

  (** A frame of the [JitEvm] and the frame of the plain EVM it stands for. *)
  Definition same_place (t : ties) (sp : Z) (c : code) (k pc : nat) : Prop :=
    match t (hash c) with
    | None => k = 0%nat /\ pc = 0%nat
    | Some None => k = pc
    | Some (Some f) => exists site, site 0%nat = Some 0%nat /\ follows R c sp f site /\ site k = Some pc
    end.
  Definition irel (t : ties) (sp : Z) (a b : @interp rest gas finput) : Prop :=
    i_code a = i_code b /\ i_spec a = sp /\ i_spec b = sp /\ i_gas a = i_gas b /\ i_ret a = i_ret b /\ i_action a = None /\ i_action b = None /\
    i_rest a = i_rest b /\ known (i_code a) /\ same_place t sp (i_code a) (i_pc a) (i_pc b).
  Definition frel (t : ties) (sp : Z) (a b : frame) : Prop :=
    f_data a = f_data b /\ f_finished a = f_finished b /\ (f_finished a = false -> irel t sp (f_interp a) (f_interp b)).
  Definition ends (a b : world) : Prop := w_spec a = w_spec b /\ w_host a = w_host b /\ w_ins a = w_ins b.
  Definition wrel (t : ties) (a b : world) : Prop := ends a b /\ Forall2 (frel t (w_spec a)) (w_stack a) (w_stack b).

  (** The functions in use stand for the interpreter. *)
  Definition ties_ok (t : ties) (sp : Z) : Prop := forall c f, known c -> t (hash c) = Some (Some f) -> faithful R c sp f.
  (** Ties are only added. *)
  Definition more (t t' : ties) : Prop := forall k x, t k = Some x -> t' k = Some x.

  Lemma more_place t t' sp c k pc : more t t' -> ties_ok t' sp -> known c -> same_place t sp c k pc -> same_place t' sp c k pc.
  Proof.
    intros M O K. unfold same_place. destruct (t (hash c)) as [x|] eqn:E.
    - rewrite (M _ _ E). auto.
    - intros [-> ->]. destruct (t' (hash c)) as [[f|]|] eqn:E'; auto. destruct (O c f K E') as (site & S0 & F). exists site. auto.
  Qed.
  Lemma more_irel t t' sp a b : more t t' -> ties_ok t' sp -> irel t sp a b -> irel t' sp a b.
  Proof.
    intros M O (A1 & A2 & A3 & A4 & A5 & A6 & A7 & A8 & A9 & A10). unfold irel. intuition. eapply more_place; eauto.
  Qed.
  Lemma more_frel t t' sp a b : more t t' -> ties_ok t' sp -> frel t sp a b -> frel t' sp a b.
  Proof. intros M O (A & B & C). split; [auto|]. split; [auto|]. intros F. eapply more_irel; eauto. Qed.
  Lemma more_wrel t t' a b : more t t' -> ties_ok t' (w_spec a) -> wrel t a b -> wrel t' a b.
  Proof.
    intros M O (A & B). split; [exact A|]. clear A. induction B; constructor; eauto using more_frel.
  Qed.

  (** A compiled call against the interpreter. *)
  Lemma call_sim t sp f (cfg : ecx -> ecx) lg a b h i :
    t (hash (i_code a)) = Some (Some f) -> irel t sp a b ->
    (forall x, cfg (from_interpreter x) = mkEcx (i_code x) (i_spec x) (i_pc x) (i_gas x) (i_ret x) (i_action x) (i_rest x) lg) ->
    let '(ac, a', h', i') := call_with_interpreter R f cfg a h i in
    let '(ac2, b', h2, l) := run_plain R b h in
    ac = ac2 /\ h' = h2 /\ i' = (if lg then fold_left (fun i x => ins_log R x i) l i else i) /\
    match ac with NewFrame _ => irel t sp a' b' | Return _ => True end.
  Proof.
    intros T (A1 & A2 & A3 & A4 & A5 & A6 & A7 & A8 & A9 & A10) CF. unfold same_place in A10. rewrite T in A10. destruct A10 as (site & S0 & F & SK).
    destruct a as [ca sa pa ga ra aa qa], b as [cb sb pb gb rb ab qb]; cbn in *. subst.
    pose proof F as FO. specialize (F pa pb gb rb qb h lg SK). pose proof (PO (mkInterp cb sp pb gb rb None qb) h) as P.
    unfold call_with_interpreter. cbn. rewrite CF. cbn. destruct (run_plain R (mkInterp cb sp pb gb rb None qb) h) as [[[ac2 b'] h2] l].
    destruct (f (mkEcx cb sp pa gb rb None qb lg) h) as [[[res e] h1] l1]. destruct F as (-> & -> & F). cbn in P. destruct P as (P1 & P2 & P3).
    destruct ac2 as [x|r].
    - destruct F as (F1 & F2 & F3 & F4 & F5 & F6 & F7). rewrite F1. split; [reflexivity|]. split; [reflexivity|]. split; [reflexivity|].
      assert (OG : is_oog res = false) by (destruct res; congruence || reflexivity). rewrite OG. unfold irel; cbn.
      split; [congruence|]. split; [reflexivity|]. split; [congruence|]. split; [exact F3|]. split.
      { rewrite F5. destruct F6 as [-> | ->]; [destruct rb; reflexivity|reflexivity]. }
      split; [reflexivity|]. split; [exact P3|]. split; [exact F4|]. split; [exact A9|]. unfold same_place. rewrite T. exists site. auto.
    - split; [|split; [reflexivity|split; [reflexivity|]]].
      + destruct (e_action e) as [a'|]; [congruence|]. destruct F as (F1 & F2 & F3). destruct r as [r1 r2 r3]; cbn in *. subst. destruct res; reflexivity.
      + destruct (e_action e) as [a'|]; [rewrite F|]; exact I.
  Qed.

  (** Running the interpreter on either side. *)
  Lemma plain_sim t sp a b h :
    t (hash (i_code a)) = Some None -> irel t sp a b ->
    let '(ac, a', h', l) := run_plain R a h in
    let '(ac2, b', h2, l2) := run_plain R b h in
    ac = ac2 /\ h' = h2 /\ l = l2 /\ match ac with NewFrame _ => irel t sp a' b' | Return _ => True end.
  Proof.
    intros T (A1 & A2 & A3 & A4 & A5 & A6 & A7 & A8 & A9 & A10). unfold same_place in A10. rewrite T in A10.
    destruct a as [ca sa pa ga ra aa qa], b as [cb sb pb gb rb ab qb]; cbn in *. subst. pose proof (PO (mkInterp cb sp pb gb rb None qb) h) as P.
    destruct (run_plain R (mkInterp cb sp pb gb rb None qb) h) as [[[ac2 b'] h2] l]. cbn in P. destruct P as (P1 & P2 & P3).
    repeat (split; [reflexivity|]). destruct ac2; [|exact I]. unfold irel, same_place. rewrite P1, P2, P3, T. auto 12.
  Qed.

  Lemma init_sim t insp n a b : wrel t a b -> ties_ok t (w_spec a) ->
    let '(a', o) := inner_init R insp n a in let '(b', o') := inner_init R insp n b in
    o = o' /\ w_spec a' = w_spec a /\ ends a' b' /\ (o <> None -> wrel t a' b').
  Proof.
    intros [(E1 & E2 & E3) F] O. unfold inner_init. rewrite <- E1, <- E2, <- E3.
    destruct (init_frame R insp (w_spec a) n (w_host a) (w_ins a)) as [[[[[[[c g] r] d]|r] h] i]|] eqn:EI.
    - split; [reflexivity|]. split; [reflexivity|]. split; [repeat split|]. intros _. split; [repeat split|]. cbn. constructor; [|exact F].
      split; [reflexivity|]. split; [reflexivity|]. intros _. unfold irel; cbn. apply CK in EI. repeat (split; [auto; fail|]).
      unfold same_place. destruct (t (hash c)) as [[f|]|] eqn:E; auto. destruct (O c f EI E) as (site & S0 & FF). exists site. auto.
    - split; [reflexivity|]. split; [reflexivity|]. split; [repeat split|]. intros _. split; [repeat split|]. exact F.
    - split; [reflexivity|]. split; [reflexivity|]. split; [repeat split; congruence|]. congruence.
  Qed.

  Lemma insert_sim t sp (a b : frame) q g ret :
    frel t sp a b -> f_finished a = false ->
    frel t sp (mkFrame (mkInterp (i_code (f_interp a)) (i_spec (f_interp a)) (i_pc (f_interp a)) g ret (i_action (f_interp a)) q) (f_data a) (f_finished a))
              (mkFrame (mkInterp (i_code (f_interp b)) (i_spec (f_interp b)) (i_pc (f_interp b)) g ret (i_action (f_interp b)) q) (f_data b) (f_finished b)).
  Proof.
    intros (A & B & C) F. split; [exact A|]. split; [exact B|]. intros _. destruct (C F) as (A1 & A2 & A3 & A4 & A5 & A6 & A7 & A8 & A9 & A10).
    unfold irel; cbn. auto 12.
  Qed.

  (** Only the top frame can be finished. *)
  Definition only_top (a : world) : Prop := Forall (fun fr => f_finished fr = false) (tl (w_stack a)).
  Definition none_done (a : world) : Prop := Forall (fun fr => f_finished fr = false) (w_stack a).

  (** One [frame_run]. *)
  Definition steps_alike {S : Type} (ok : S -> Z -> ties -> Prop) (step : S -> world -> S * world * outcome) (insp : bool) : Prop :=
    forall s t a b, ok s (w_spec a) t -> wrel t a b -> none_done a ->
      let '(s', a', o) := step s a in
      let '(_, b', o') := plain_step R insp tt b in
      o = o' /\ w_spec a' = w_spec a /\ ends a' b' /\ exists t', more t t' /\ ok s' (w_spec a) t' /\ (o <> OErr -> wrel t' a' b').

  Lemma return_sim t r a b : wrel t a b -> only_top a ->
    let '(a', o) := inner_return R r a in let '(b', o') := inner_return R r b in
    o = o' /\ w_spec a' = w_spec a /\ ends a' b' /\ (o <> None -> wrel t a' b' /\ none_done a').
  Proof.
    intros [(E1 & E2 & E3) F] OT. unfold inner_return.
    set (sa := match w_stack a with fr :: fs => if f_finished fr then fs else fr :: fs | [] => [] end).
    set (sb := match w_stack b with fr :: fs => if f_finished fr then fs else fr :: fs | [] => [] end).
    assert (S : Forall2 (frel t (w_spec a)) sa sb /\ Forall (fun fr => f_finished fr = false) sa).
    { subst sa sb. unfold only_top in OT. destruct F as [|x y xs ys X F]; [split; constructor|]. cbn in OT. destruct X as (X1 & X2 & X3).
      rewrite <- X2. destruct (f_finished x) eqn:Ex; [split; assumption|]. split; [constructor; [|exact F]|constructor; assumption].
      split; [exact X1|]. split; [congruence|]. intros _. auto. }
    clearbody sa sb. destruct S as [S OK]. destruct S as [|x y xs ys X S].
    - split; [reflexivity|]. split; [reflexivity|]. split; [repeat split; assumption|]. intros _. split; [split; [repeat split; assumption|constructor]|constructor].
    - inversion OK as [|? ? Fx OK']; subst. destruct X as (X1 & X2 & X3). destruct (X3 Fx) as (A1 & A2 & A3 & A4 & A5 & A6 & A7 & A8 & A9 & A10).
      rewrite <- E2, <- A8, <- A4. destruct (insert_result R r (i_rest (f_interp x)) (i_gas (f_interp x)) (w_host a)) as [[[[q g] ret] h]|].
      + split; [reflexivity|]. split; [reflexivity|]. split; [repeat split; assumption|]. intros _. split.
        * split; [repeat split; assumption|]. cbn. constructor; [|exact S]. apply insert_sim; [split; [exact X1|split; [exact X2|exact X3]]|exact Fx].
        * constructor; [exact Fx|exact OK'].
      + split; [reflexivity|]. split; [reflexivity|]. split; [repeat split; assumption|]. congruence.
  Qed.

  (** The steps keep all but the top frame as they are. *)
  Definition leaves {S : Type} (step : S -> world -> S * world * @outcome finit fresult) : Prop :=
    forall s a, none_done a -> let '(_, a', o) := step s a in match o with OErr => True | OItem _ => none_done a' | OResult _ => only_top a' end.

  Lemma init_leaves insp n a : none_done a -> let '(a', o) := inner_init R insp n a in none_done a'.
  Proof.
    intros H. unfold inner_init. destruct (init_frame R insp (w_spec a) n (w_host a) (w_ins a)) as [[[[[[[c g] r] d]|r] h] i]|]; [constructor; [reflexivity|exact H]|exact H|exact H].
  Qed.
  Lemma none_only a : none_done a -> only_top a.
  Proof. unfold none_done, only_top. intros H. destruct H; [constructor|exact H0]. Qed.

  Lemma loop_sim {S : Type} (ok : S -> Z -> ties -> Prop) step insp : steps_alike ok step insp -> leaves step -> (forall s sp t, ok s sp t -> ties_ok t sp) ->
    forall fuel s t a b, ok s (w_spec a) t -> wrel t a b -> none_done a ->
      match exec_loop R step insp fuel s a, exec_loop R (plain_step R insp) insp fuel tt b with
      | None, None => True
      | Some (s', a', r), Some (_, b', r') => r = r' /\ w_spec a' = w_spec a /\ ends a' b' /\ exists t', ok s' (w_spec a) t'
      | _, _ => False
      end.
  Proof.
    intros SA LV TO. induction fuel as [|fuel IH]; intros s t a b OK W ND; [exact I|]. cbn [exec_loop].
    specialize (SA s t a b OK W ND). specialize (LV s a ND). destruct (step s a) as [[s1 a1] o]. destruct (plain_step R insp tt b) as [[u b1] o'].
    destruct SA as (<- & SP & EN & t1 & M & OK1 & W1). destruct u.
    assert (GIVE : forall r t2 a2 b2, ok s1 (w_spec a2) t2 -> wrel t2 a2 b2 -> only_top a2 -> w_spec a2 = w_spec a ->
      match (match inner_return R r a2 with (w', None) => Some (s1, w', None) | (w', Some (Some r')) => Some (s1, w', Some r') | (w', Some None) => exec_loop R step insp fuel s1 w' end),
            (match inner_return R r b2 with (w', None) => Some (tt, w', None) | (w', Some (Some r')) => Some (tt, w', Some r') | (w', Some None) => exec_loop R (plain_step R insp) insp fuel tt w' end) with
      | None, None => True
      | Some (s', a', r), Some (_, b', r') => r = r' /\ w_spec a' = w_spec a /\ ends a' b' /\ exists t', ok s' (w_spec a) t'
      | _, _ => False
      end).
    { intros r t2 a2 b2 OK2 W2 OT SP2. pose proof (return_sim t2 r a2 b2 W2 OT) as RS. destruct (inner_return R r a2) as [a3 o3]. destruct (inner_return R r b2) as [b3 o3'].
      destruct RS as (<- & SP3 & EN3 & W3). rewrite SP2 in *. destruct o3 as [[r'|]|].
      - split; [reflexivity|]. split; [exact SP3|]. split; [exact EN3|]. eauto.
      - destruct (W3 ltac:(discriminate)) as [W4 ND4]. specialize (IH s1 t2 a3 b3). rewrite SP3 in IH. exact (IH OK2 W4 ND4).
      - split; [reflexivity|]. split; [exact SP3|]. split; [exact EN3|]. eauto. }
    destruct o as [n|r|].
    - specialize (W1 ltac:(discriminate)). rewrite <- SP in OK1. pose proof (init_sim t1 insp n a1 b1 W1 (TO _ _ _ OK1)) as IS. pose proof (init_leaves insp n a1 LV) as IL.
      destruct (inner_init R insp n a1) as [a2 o2]. destruct (inner_init R insp n b1) as [b2 o2']. destruct IS as (<- & SP2 & EN2 & W2).
      assert (SP2' : w_spec a2 = w_spec a) by congruence.
      destruct o2 as [[r|]|].
      + apply (GIVE r t1); [congruence|apply W2; discriminate|apply none_only, IL|exact SP2'].
      + specialize (IH s1 t1 a2 b2). rewrite SP2' in IH. rewrite SP in OK1. exact (IH OK1 (W2 ltac:(discriminate)) IL).
      + rewrite SP in OK1. split; [reflexivity|]. split; [exact SP2'|]. split; [exact EN2|]. eauto.
    - apply (GIVE r t1); [congruence|apply W1; discriminate|exact LV|exact SP].
    - split; [reflexivity|]. split; [exact SP|]. split; [exact EN|]. eauto.
  Qed.

  (** A whole transaction, starting and ending with no frames. *)
  Lemma run_sim {S : Type} (ok : S -> Z -> ties -> Prop) step insp sys : steps_alike ok step insp -> leaves step -> (forall s sp t, ok s sp t -> ties_ok t sp) ->
    forall fuel s t a, ok s (w_spec a) t -> w_stack a = [] ->
      match run R step insp sys fuel s a, run R (plain_step R insp) insp sys fuel tt a with
      | None, None => True
      | Some (s', a', r), Some (_, b', r') => r = r' /\ a' = b' /\ w_spec a' = w_spec a /\ w_stack a' = [] /\ exists t', ok s' (w_spec a) t'
      | _, _ => False
      end.
  Proof.
    intros SA LV TO fuel s t a OK E0. unfold run.
    assert (STOP : forall (x : option (S * world * option fresult)) (y : option (unit * world * option fresult)),
      match x, y with
      | None, None => True
      | Some (s', a', r), Some (_, b', r') => r = r' /\ w_spec a' = w_spec a /\ ends a' b' /\ exists t', ok s' (w_spec a) t'
      | _, _ => False
      end ->
      match (match x with None => None | Some (s, w, None) => Some (s, mkWorld (w_spec w) (fail R (w_host w)) (w_ins w) [], None)
             | Some (s, w, Some r) => let '(t, h) := finish R (w_spec w) r (w_host w) in Some (s, mkWorld (w_spec w) h (w_ins w) [], Some t) end),
            (match y with None => None | Some (s, w, None) => Some (s, mkWorld (w_spec w) (fail R (w_host w)) (w_ins w) [], None)
             | Some (s, w, Some r) => let '(t, h) := finish R (w_spec w) r (w_host w) in Some (s, mkWorld (w_spec w) h (w_ins w) [], Some t) end) with
      | None, None => True
      | Some (s', a', r), Some (_, b', r') => r = r' /\ a' = b' /\ w_spec a' = w_spec a /\ w_stack a' = ([] : list frame) /\ exists t', ok s' (w_spec a) t'
      | _, _ => False
      end).
    { intros [[[s' a'] r]|] [[[u b'] r']|] H; try contradiction; [|exact I]. destruct H as (<- & SP & (E1 & E2 & E3) & X). rewrite <- E1, <- E2, <- E3.
      destruct r as [r|]; [destruct (finish R (w_spec a') r (w_host a')) as [tr h]|]; cbn; auto 8. }
    destruct (begin R insp sys (w_spec a) (w_host a)) as [[n h]|].
    - assert (W0 : wrel t (mkWorld (w_spec a) h (w_ins a) (w_stack a)) (mkWorld (w_spec a) h (w_ins a) (w_stack a))).
      { split; [repeat split|]. cbn. rewrite E0. constructor. }
      pose proof (init_sim t insp n _ _ W0 (TO _ _ _ OK)) as IS.
      pose proof (init_leaves insp n (mkWorld (w_spec a) h (w_ins a) (w_stack a))) as IL.
      destruct (inner_init R insp n (mkWorld (w_spec a) h (w_ins a) (w_stack a))) as [a1 o]. destruct IS as (_ & SP & EN & W1). cbn in SP.
      assert (ND : none_done a1) by (apply IL; unfold none_done; cbn; rewrite E0; constructor).
      destruct o as [[r|]|].
      + apply (STOP (Some (s, a1, Some r)) (Some (tt, a1, Some r))). split; [reflexivity|]. split; [exact SP|]. split; [repeat split|]. eauto.
      + apply (STOP (exec_loop R step insp fuel s a1) (exec_loop R (plain_step R insp) insp fuel tt a1)). rewrite <- SP in OK. pose proof (loop_sim ok step insp SA LV TO fuel s t a1 a1 OK (W1 ltac:(discriminate)) ND) as L. rewrite SP in L. exact L.
      + apply (STOP (Some (s, a1, None)) (Some (tt, a1, None))). split; [reflexivity|]. split; [exact SP|]. split; [repeat split|]. eauto.
    - apply (STOP (Some (s, a, None)) (Some (tt, a, None))). split; [reflexivity|]. split; [reflexivity|]. split; [repeat split|]. eauto.
  Qed.

  (** ** The steps of the [JitEvm]s, given the engine of the top frame. *)
  Definition engine_run (insp : bool) (e : option func) (w : world) : world * outcome :=
    match w_stack w with
    | [] => (w, OErr)
    | fr :: fs =>
        match e with
        | Some f =>
            if insp
            then let '(a, it, h, i) := call_with_interpreter R f set_on_log (f_interp fr) (w_host w) (w_ins w) in inspect_end R (f_data fr) it fs w h i a
            else let '(a, it, h, i) := call_with_interpreter R f (fun e => e) (f_interp fr) (w_host w) (w_ins w) in
                 process R (f_data fr) it fs (mkWorld (w_spec w) (w_host w) i (w_stack w)) h a
        | None => if insp then inner_inspect_run R w else inner_run R w
        end
    end.

  Lemma irel_child t sp a b r : irel t sp a b -> irel t sp (after_child a r) (after_child b r).
  Proof. intros (A1 & A2 & A3 & A4 & A5 & A6 & A7 & A8 & A9 & A10). unfold irel, after_child; cbn. auto 12. Qed.

  Lemma engine_sim t insp e a b fr fs : wrel t a b -> none_done a -> w_stack a = fr :: fs -> t (hash (i_code (f_interp fr))) = Some e ->
    let '(a', o) := engine_run insp e a in let '(_, b', o') := plain_step R insp tt b in
    o = o' /\ w_spec a' = w_spec a /\ ends a' b' /\ (o <> OErr -> wrel t a' b').
  Proof.
    intros [(E1 & E2 & E3) F] ND EA T. unfold none_done in ND. unfold engine_run, plain_step. rewrite EA in *.
    destruct (w_stack b) as [|fb fsb] eqn:EB; [inversion F|]. inversion F as [|? ? ? ? X FF]; subst. inversion ND as [|? ? NF _]; subst.
    destruct X as (X1 & X2 & X3). specialize (X3 NF).
    destruct e as [f|].
    - destruct insp.
      + pose proof (call_sim t (w_spec a) f set_on_log true (f_interp fr) (f_interp fb) (w_host a) (w_ins a) T X3 (fun _ => eq_refl)) as CS.
        unfold inner_inspect_run. rewrite EB, <- E2. destruct (call_with_interpreter R f set_on_log (f_interp fr) (w_host a) (w_ins a)) as [[[ac ia] h] i].
        destruct (run_plain R (f_interp fb) (w_host a)) as [[[ac2 ib] h2] l]. destruct CS as (<- & <- & -> & IR). unfold inspect_end. rewrite <- X1, <- E1, <- E3.
        destruct ac as [x|res].
        * destruct IR as (A1 & A2 & A3 & A4 & A5 & A6 & A7 & A8 & A9 & A10). rewrite A8. destruct (proc_new R (f_data fr) (i_rest ib) x) as [n r].
          split; [reflexivity|]. split; [reflexivity|]. split; [repeat split|]. intros _. split; [repeat split|]. cbn. constructor; [|exact FF].
          split; [reflexivity|]. split; [reflexivity|]. intros _. apply irel_child. unfold irel. auto 12.
        * destruct (proc_return R (f_data fr) h res) as [[r h']|].
          -- destruct (ins_end R h' (f_data fr) r (if is_destruct (r_res res) then ins_destruct R h (fold_left (fun i x => ins_log R x i) l (w_ins a)) else fold_left (fun i x => ins_log R x i) l (w_ins a))) as [r' i2].
             split; [reflexivity|]. split; [reflexivity|]. split; [repeat split|]. intros _. split; [repeat split|]. cbn. constructor; [|exact FF].
             split; [reflexivity|]. split; [reflexivity|]. discriminate.
          -- split; [reflexivity|]. split; [reflexivity|]. split; [repeat split|]. congruence.
      + pose proof (call_sim t (w_spec a) f (fun e => e) false (f_interp fr) (f_interp fb) (w_host a) (w_ins a) T X3 (fun _ => eq_refl)) as CS.
        unfold inner_run. rewrite EB, <- E2. destruct (call_with_interpreter R f (fun e => e) (f_interp fr) (w_host a) (w_ins a)) as [[[ac ia] h] i].
        destruct (run_plain R (f_interp fb) (w_host a)) as [[[ac2 ib] h2] l]. destruct CS as (<- & <- & -> & IR). unfold process. rewrite <- X1, <- E1, <- E3. cbn [w_spec w_ins].
        destruct ac as [x|res].
        * destruct IR as (A1 & A2 & A3 & A4 & A5 & A6 & A7 & A8 & A9 & A10). rewrite A8. destruct (proc_new R (f_data fr) (i_rest ib) x) as [n r].
          split; [reflexivity|]. split; [reflexivity|]. split; [repeat split|]. intros _. split; [repeat split|]. cbn. constructor; [|exact FF].
          split; [reflexivity|]. split; [reflexivity|]. intros _. apply irel_child. unfold irel. auto 12.
        * destruct (proc_return R (f_data fr) h res) as [[r h']|].
          -- split; [reflexivity|]. split; [reflexivity|]. split; [repeat split|]. intros _. split; [repeat split|]. cbn. constructor; [|exact FF].
             split; [reflexivity|]. split; [reflexivity|]. discriminate.
          -- split; [reflexivity|]. split; [reflexivity|]. split; [repeat split|]. congruence.
    - pose proof (plain_sim t (w_spec a) (f_interp fr) (f_interp fb) (w_host a) T X3) as PS. destruct insp; unfold inner_inspect_run, inner_run; rewrite EB, EA, <- E2;
        destruct (run_plain R (f_interp fr) (w_host a)) as [[[ac ia] h] l]; destruct (run_plain R (f_interp fb) (w_host a)) as [[[ac2 ib] h2] l2];
        destruct PS as (<- & <- & <- & IR); rewrite <- X1, <- E1, <- E3.
      + destruct ac as [x|res].
        * destruct IR as (A1 & A2 & A3 & A4 & A5 & A6 & A7 & A8 & A9 & A10). rewrite A8. destruct (proc_new R (f_data fr) (i_rest ib) x) as [n r].
          split; [reflexivity|]. split; [reflexivity|]. split; [repeat split|]. intros _. split; [repeat split|]. cbn. constructor; [|exact FF].
          split; [reflexivity|]. split; [reflexivity|]. intros _. apply irel_child. unfold irel. auto 12.
        * destruct (proc_return R (f_data fr) h res) as [[r h']|].
          -- destruct (ins_end R h' (f_data fr) r (if is_destruct (r_res res) then ins_destruct R h (fold_left (fun i x => ins_log R x i) l (w_ins a)) else fold_left (fun i x => ins_log R x i) l (w_ins a))) as [r' i2].
             split; [reflexivity|]. split; [reflexivity|]. split; [repeat split|]. intros _. split; [repeat split|]. cbn. constructor; [|exact FF].
             split; [reflexivity|]. split; [reflexivity|]. discriminate.
          -- split; [reflexivity|]. split; [reflexivity|]. split; [repeat split|]. congruence.
      + destruct ac as [x|res].
        * destruct IR as (A1 & A2 & A3 & A4 & A5 & A6 & A7 & A8 & A9 & A10). rewrite A8. destruct (proc_new R (f_data fr) (i_rest ib) x) as [n r].
          split; [reflexivity|]. split; [reflexivity|]. split; [repeat split|]. intros _. split; [repeat split|]. cbn. constructor; [|exact FF].
          split; [reflexivity|]. split; [reflexivity|]. intros _. apply irel_child. unfold irel. auto 12.
        * destruct (proc_return R (f_data fr) h res) as [[r h']|].
          -- split; [reflexivity|]. split; [reflexivity|]. split; [repeat split|]. intros _. split; [repeat split|]. cbn. constructor; [|exact FF].
             split; [reflexivity|]. split; [reflexivity|]. discriminate.
          -- split; [reflexivity|]. split; [reflexivity|]. split; [repeat split|]. congruence.
  Qed.

  Lemma engine_leaves insp e a : none_done a -> let '(a', o) := engine_run insp e a in match o with OErr => True | OItem _ => none_done a' | OResult _ => only_top a' end.
  Proof.
    unfold none_done, only_top. intros ND. unfold engine_run. destruct (w_stack a) as [|fr fs] eqn:EA; [exact I|]. inversion ND as [|? ? NF NFS]; subst.
    destruct e as [f|]; destruct insp.
    - destruct (call_with_interpreter R f set_on_log (f_interp fr) (w_host a) (w_ins a)) as [[[ac ia] h] i]. unfold inspect_end.
      destruct ac as [x|res]; [destruct (proc_new R (f_data fr) (i_rest ia) x); cbn; constructor; auto|].
      destruct (proc_return R (f_data fr) h res) as [[r h']|]; [|exact I]. destruct (ins_end R h' (f_data fr) r _). cbn. exact NFS.
    - destruct (call_with_interpreter R f (fun e => e) (f_interp fr) (w_host a) (w_ins a)) as [[[ac ia] h] i]. unfold process.
      destruct ac as [x|res]; [destruct (proc_new R (f_data fr) (i_rest ia) x); cbn; constructor; auto|].
      destruct (proc_return R (f_data fr) h res) as [[r h']|]; [|exact I]. cbn. exact NFS.
    - unfold inner_inspect_run. rewrite EA. destruct (run_plain R (f_interp fr) (w_host a)) as [[[ac ia] h] i].
      destruct ac as [x|res]; [destruct (proc_new R (f_data fr) (i_rest ia) x); cbn; constructor; auto|].
      destruct (proc_return R (f_data fr) h res) as [[r h']|]; [|exact I]. destruct (ins_end R h' (f_data fr) r _). cbn. exact NFS.
    - unfold inner_run. rewrite EA. destruct (run_plain R (f_interp fr) (w_host a)) as [[[ac ia] h] i].
      destruct ac as [x|res]; [destruct (proc_new R (f_data fr) (i_rest ia) x); cbn; constructor; auto|].
      destruct (proc_return R (f_data fr) h res) as [[r h']|]; [|exact I]. cbn. exact NFS.
  Qed.

  (** ** The runtime's [JitEvm]. *)
  Section Runtime.
    Variable lookup : nat -> Z -> Z -> code -> @decision rest gas finput host log.
    Hypothesis BO : backend_ok R known hash lookup.
    Notation jit := (@jit rest gas finput host log).
    Definition engine (d : @decision rest gas finput host log) : option func := match d with Compiled p => Some (p_func p) | Interpret => None end.
    Definition cache_ties (j : jit) : ties := fun k => option_map engine (cached k (j_cache j)).
    Definition jit_ok (j : jit) (sp : Z) (t : ties) : Prop := t = cache_ties j /\ j_spec j = sp /\ ties_ok t sp.

    Lemma jit_step (insp : bool) : steps_alike jit_ok (if insp then inspect_frame_run R hash lookup else frame_run R hash lookup) insp.
    Proof.
      intros j t a b (-> & JS & TO) W ND. destruct (w_stack a) as [|fr fs] eqn:EA.
      - assert (EB : w_stack b = []) by (destruct W as [_ F]; rewrite EA in F; inversion F; reflexivity).
        unfold plain_step, inspect_frame_run, frame_run, inner_inspect_run, inner_run. destruct insp; rewrite EA, EB;
          (split; [reflexivity|]; split; [reflexivity|]; split; [apply W|]; exists (cache_ties j); split; [intros k x H; exact H|]; split; [repeat split; auto|congruence]).
      - assert (KN : known (i_code (f_interp fr))).
        { destruct W as [_ F]. unfold none_done in ND. rewrite EA in *. inversion F as [|? ? ? ? (_ & _ & X) _]; subst. inversion ND; subst. apply X. assumption. }
        assert (DEC : exists j1 d, decide hash lookup j (w_spec a) (i_code (f_interp fr)) = (j1, d) /\
                      cache_ties j1 (hash (i_code (f_interp fr))) = Some (engine d) /\ more (cache_ties j) (cache_ties j1) /\ jit_ok j1 (w_spec a) (cache_ties j1)).
        { unfold decide. destruct (cached (hash (i_code (f_interp fr))) (j_cache j)) as [d|] eqn:EC.
          - exists j, d. split; [reflexivity|]. split; [unfold cache_ties; rewrite EC; reflexivity|]. split; [intros k x H; exact H|]. repeat split; auto.
          - set (d := lookup (j_count j) (hash (i_code (f_interp fr))) (w_spec a) (i_code (f_interp fr))). exists (mkJit ((hash (i_code (f_interp fr)), d) :: j_cache j) (j_spec j) (S (j_count j))), d. split; [reflexivity|].
            split; [unfold cache_ties; cbn; rewrite Z.eqb_refl; reflexivity|]. split.
            + intros k x. unfold cache_ties. cbn. destruct (Z.eqb_spec (hash (i_code (f_interp fr))) k) as [<-|]; [rewrite EC; discriminate|auto].
            + split; [reflexivity|]. split; [exact JS|]. intros c f Kc. unfold cache_ties. cbn. destruct (Z.eqb_spec (hash (i_code (f_interp fr))) (hash c)) as [E|].
              * destruct d as [p|] eqn:ED; cbn; [|discriminate]. intros H. injection H as <-. destruct (BO _ _ _ _ _ ED) as (P1 & P2 & P3). rewrite <- P2. apply P3; congruence.
              * apply TO. exact Kc. }
        destruct DEC as (j1 & d & ED & T1 & M & OK1). pose proof (more_wrel _ _ a b M (proj2 (proj2 OK1)) W) as W1.
        pose proof (engine_sim (cache_ties j1) insp (engine d) a b fr fs W1 ND EA T1) as ES.
        assert (ST : (if insp then inspect_frame_run R hash lookup else frame_run R hash lookup) j a = (j1, fst (engine_run insp (engine d) a), snd (engine_run insp (engine d) a))).
        { unfold engine_run, inspect_frame_run, frame_run. destruct insp; rewrite EA, ED; destruct d as [p|]; cbn [engine].
          - destruct (call_with_interpreter R (p_func p) set_on_log (f_interp fr) (w_host a) (w_ins a)) as [[[ac ia] h] i]. destruct (inspect_end R (f_data fr) ia fs a h i ac). reflexivity.
          - destruct (inner_inspect_run R a). reflexivity.
          - destruct (call_with_interpreter R (p_func p) (fun e => e) (f_interp fr) (w_host a) (w_ins a)) as [[[ac ia] h] i].
            destruct (process R (f_data fr) ia fs (mkWorld (w_spec a) (w_host a) i (fr :: fs)) h ac). reflexivity.
          - destruct (inner_run R a). reflexivity. }
        rewrite ST. destruct (engine_run insp (engine d) a) as [a' o]. destruct (plain_step R insp tt b) as [[u b'] o']. cbn [fst snd].
        destruct ES as (E1 & E2 & E3 & E4). split; [exact E1|]. split; [exact E2|]. split; [exact E3|]. exists (cache_ties j1). auto.
    Qed.

    Lemma jit_leaves (insp : bool) : leaves (if insp then inspect_frame_run R hash lookup else frame_run R hash lookup).
    Proof.
      intros j a ND. destruct (w_stack a) as [|fr fs] eqn:EA; [unfold inspect_frame_run, frame_run; destruct insp; rewrite EA; exact I|].
      destruct (decide hash lookup j (w_spec a) (i_code (f_interp fr))) as [j1 d] eqn:ED. pose proof (engine_leaves insp (engine d) a ND) as L.
      unfold engine_run in L. unfold inspect_frame_run, frame_run. destruct insp; rewrite EA in *; rewrite ED; destruct d as [p|]; cbn [engine] in L.
      - destruct (call_with_interpreter R (p_func p) set_on_log (f_interp fr) (w_host a) (w_ins a)) as [[[ac ia] h] i]. destruct (inspect_end R (f_data fr) ia fs a h i ac). exact L.
      - destruct (inner_inspect_run R a). exact L.
      - destruct (call_with_interpreter R (p_func p) (fun e => e) (f_interp fr) (w_host a) (w_ins a)) as [[[ac ia] h] i].
        destruct (process R (f_data fr) ia fs (mkWorld (w_spec a) (w_host a) i (fr :: fs)) h ac). exact L.
      - destruct (inner_run R a). exact L.
    Qed.

    (** Between transactions: no frames, and the cache fits the spec it was made for. *)
    Definition at_rest (j : jit) (w : world) : Prop := w_stack w = [] /\ ties_ok (cache_ties j) (j_spec j).
    Lemma empty_ok sp n s : ties_ok (cache_ties (mkJit [] n s)) sp.
    Proof. intros c f _ H. discriminate. Qed.
    Lemma invalidate_ok (j : jit) (w : world) : ties_ok (cache_ties j) (j_spec j) -> jit_ok (invalidate_cache j w) (w_spec w) (cache_ties (invalidate_cache j w)).
    Proof.
      intros H. unfold invalidate_cache. destruct (Z.eqb_spec (w_spec w) (j_spec j)) as [E|]; split; try reflexivity; split; try (cbn; congruence).
      - rewrite E. exact H.
      - apply empty_ok.
    Qed.

    Lemma tx_sim fuel (insp sys : bool) j w : at_rest j w ->
      match run R (if insp then inspect_frame_run R hash lookup else frame_run R hash lookup) insp sys fuel (invalidate_cache j w) w, plain_tx R fuel insp sys w with
      | None, None => True
      | Some (j', w', r), Some (w2, r2) => Some r = r2 /\ w' = w2 /\ at_rest j' w'
      | _, _ => False
      end.
    Proof.
      intros [E0 T]. unfold plain_tx.
      pose proof (run_sim jit_ok _ insp sys (jit_step insp) (jit_leaves insp) (fun s sp t H => proj2 (proj2 H)) fuel _ _ w (invalidate_ok j w T) E0) as RS.
      destruct (run R (if insp then inspect_frame_run R hash lookup else frame_run R hash lookup) insp sys fuel (invalidate_cache j w) w) as [[[j' w'] r]|];
        destruct (run R (plain_step R insp) insp sys fuel tt w) as [[[u w2] r2]|]; try contradiction; [|exact I].
      destruct RS as (-> & <- & SP & EM & t' & -> & JS & TO). split; [reflexivity|]. split; [reflexivity|]. split; [exact EM|]. rewrite JS. exact TO.
    Qed.

    Lemma perform_sim fuel c j w : at_rest j w ->
      match perform R hash lookup fuel c j w, plain_perform R fuel c w with
      | None, None => True
      | Some (j', w', r), Some (w2, r2) => r = r2 /\ w' = w2 /\ at_rest j' w'
      | _, _ => False
      end.
    Proof.
      intros A. pose proof A as [E0 T].
      assert (AH : forall h, at_rest j (with_host w h)) by (intros h; split; assumption).
      destruct c; unfold perform, plain_perform, transact_one, replay, system_call, inspect_one_tx, inspect_system_call.
      - pose proof (tx_sim fuel false false j _ (AH (set_tx R t (w_host w)))) as X.
        destruct (run R _ _ _ _ _ _) as [[[j' w'] r]|]; destruct (plain_tx R fuel _ _ _) as [[w2 r2]|]; exact X.
      - pose proof (tx_sim fuel false false j w A) as X. destruct (run R _ _ _ _ _ _) as [[[j' w'] r]|]; destruct (plain_tx R fuel _ _ _) as [[w2 r2]|]; exact X.
      - pose proof (tx_sim fuel false true j _ (AH (set_tx R t (w_host w)))) as X.
        destruct (run R _ _ _ _ _ _) as [[[j' w'] r]|]; destruct (plain_tx R fuel _ _ _) as [[w2 r2]|]; exact X.
      - pose proof (tx_sim fuel true false j _ (AH (set_tx R t (w_host w)))) as X.
        destruct (run R _ _ _ _ _ _) as [[[j' w'] r]|]; destruct (plain_tx R fuel _ _ _) as [[w2 r2]|]; exact X.
      - pose proof (tx_sim fuel true true j _ (AH (set_tx R t (w_host w)))) as X.
        destruct (run R _ _ _ _ _ _) as [[[j' w'] r]|]; destruct (plain_tx R fuel _ _ _) as [[w2 r2]|]; exact X.
      - repeat split; assumption.
      - split; [reflexivity|]. split; [reflexivity|]. split; [exact E0|apply empty_ok].
      - repeat split; assumption.
      - repeat split; assumption.
    Qed.

    Lemma live_sim fuel l : forall j w, at_rest j w ->
      match live R hash lookup fuel l j w, plain_live R fuel l w with
      | None, None => True
      | Some (_, w', rs), Some (w2, rs2) => rs = rs2 /\ w' = w2
      | _, _ => False
      end.
    Proof.
      induction l as [|c l IH]; intros j w A; [split; reflexivity|]. cbn [live plain_live]. pose proof (perform_sim fuel c j w A) as P.
      destruct (perform R hash lookup fuel c j w) as [[[j1 w1] r]|]; destruct (plain_perform R fuel c w) as [[w2 r2]|]; try contradiction; [|exact I].
      destruct P as (<- & <- & A1). specialize (IH j1 w1 A1).
      destruct (live R hash lookup fuel l j1 w1) as [[[j2 w2] rs]|]; destruct (plain_live R fuel l w1) as [[w3 rs2]|]; try contradiction; [|exact I].
      destruct IH as [<- <-]. split; reflexivity.
    Qed.
  End Runtime.

  (** ** The [JitEvm] of revmc-context. *)
  Section Generic.
    Variable functions : Z -> option func.
    Variable on_miss : nat -> Z -> code -> option func.
    Variable sp : Z.
    Hypothesis FO : forall c f, known c -> functions (hash c) = Some f -> faithful R c sp f.
    Hypothesis MO : forall n c f, known c -> on_miss n (hash c) c = Some f -> faithful R c sp f.
    Variable chosen : Z -> option func.
    Hypothesis CH : forall n c, known c -> on_miss n (hash c) c = chosen (hash c).
    Definition table : ties := fun k => Some (match functions k with Some f => Some f | None => chosen k end).
    Definition gen_ok (_ : nat) (s : Z) (t : ties) : Prop := t = table /\ s = sp.
    Lemma table_ok : ties_ok table sp.
    Proof.
      intros c f K. unfold table. destruct (functions (hash c)) as [g|] eqn:E; intros H; injection H as H.
      - subst. eapply FO; eassumption.
      - eapply (MO 0%nat); [exact K|]. rewrite CH by exact K. exact H.
    Qed.
    Lemma gen_step (insp : bool) : steps_alike gen_ok (if insp then inspect_frame_run_c R hash functions on_miss else frame_run_c R hash functions on_miss) insp.
    Proof.
      intros n t a b (-> & JS) W ND. destruct (w_stack a) as [|fr fs] eqn:EA.
      - assert (EB : w_stack b = []) by (destruct W as [_ F]; rewrite EA in F; inversion F; reflexivity).
        unfold plain_step, inspect_frame_run_c, frame_run_c, inner_inspect_run, inner_run. destruct insp; rewrite EA, EB;
          (split; [reflexivity|]; split; [reflexivity|]; split; [apply W|]; exists table; split; [intros k x H; exact H|]; split; [split; auto|congruence]).
      - assert (KN : known (i_code (f_interp fr))).
        { destruct W as [_ F]. unfold none_done in ND. rewrite EA in *. inversion F as [|? ? ? ? (_ & _ & X) _]; subst. inversion ND; subst. apply X. assumption. }
        set (c := i_code (f_interp fr)) in *. set (e := match functions (hash c) with Some f => Some f | None => chosen (hash c) end).
        assert (PK : exists n1, pick hash functions on_miss n c = (n1, e)).
        { unfold pick, e. destruct (functions (hash c)); [eauto|]. rewrite CH by exact KN. eauto. }
        destruct PK as [n1 EP]. pose proof (engine_sim table insp e a b fr fs W ND EA eq_refl) as ES.
        assert (ST : (if insp then inspect_frame_run_c R hash functions on_miss else frame_run_c R hash functions on_miss) n a = (n1, fst (engine_run insp e a), snd (engine_run insp e a))).
        { unfold engine_run, inspect_frame_run_c, frame_run_c. fold c. destruct insp; rewrite EA; fold c; rewrite EP; destruct e as [f|].
          - destruct (call_with_interpreter R f set_on_log (f_interp fr) (w_host a) (w_ins a)) as [[[ac ia] h] i]. destruct (inspect_end R (f_data fr) ia fs a h i ac). reflexivity.
          - destruct (inner_inspect_run R a). reflexivity.
          - destruct (call_with_interpreter R f (fun e => e) (f_interp fr) (w_host a) (w_ins a)) as [[[ac ia] h] i].
            destruct (process R (f_data fr) ia fs (mkWorld (w_spec a) (w_host a) i (fr :: fs)) h ac). reflexivity.
          - destruct (inner_run R a). reflexivity. }
        rewrite ST. destruct (engine_run insp e a) as [a' o]. destruct (plain_step R insp tt b) as [[u b'] o']. cbn [fst snd].
        destruct ES as (E1 & E2 & E3 & E4). split; [exact E1|]. split; [exact E2|]. split; [exact E3|]. exists table. split; [intros k x H; exact H|]. split; [split; auto|exact E4].
    Qed.
    Lemma gen_leaves (insp : bool) : leaves (if insp then inspect_frame_run_c R hash functions on_miss else frame_run_c R hash functions on_miss).
    Proof.
      intros n a ND. destruct (w_stack a) as [|fr fs] eqn:EA; [unfold inspect_frame_run_c, frame_run_c; destruct insp; rewrite EA; exact I|].
      destruct (pick hash functions on_miss n (i_code (f_interp fr))) as [n1 e] eqn:EP. pose proof (engine_leaves insp e a ND) as L.
      unfold engine_run in L. unfold inspect_frame_run_c, frame_run_c. destruct insp; rewrite EA in *; rewrite EP; destruct e as [f|].
      - destruct (call_with_interpreter R f set_on_log (f_interp fr) (w_host a) (w_ins a)) as [[[ac ia] h] i]. destruct (inspect_end R (f_data fr) ia fs a h i ac). exact L.
      - destruct (inner_inspect_run R a). exact L.
      - destruct (call_with_interpreter R f (fun e => e) (f_interp fr) (w_host a) (w_ins a)) as [[[ac ia] h] i].
        destruct (process R (f_data fr) ia fs (mkWorld (w_spec a) (w_host a) i (fr :: fs)) h ac). exact L.
      - destruct (inner_run R a). exact L.
    Qed.
    Lemma gen_sim fuel (insp : bool) t n w : w_spec w = sp -> w_stack w = [] ->
      match transact_c R hash functions on_miss fuel insp t n w, plain_tx R fuel insp false (with_host w (set_tx R t (w_host w))) with
      | None, None => True
      | Some (_, w', r), Some (w2, r2) => Some r = r2 /\ w' = w2 /\ w_stack w' = []
      | _, _ => False
      end.
    Proof.
      intros ES E0. unfold transact_c, plain_tx.
      assert (G : gen_ok n (w_spec (with_host w (set_tx R t (w_host w)))) table) by (split; [reflexivity|exact ES]).
      pose proof (run_sim gen_ok _ insp false (gen_step insp) (gen_leaves insp) ltac:(intros s s' t' [-> ->]; exact table_ok) fuel n table (with_host w (set_tx R t (w_host w))) G E0) as RS.
      destruct (run R (if insp then inspect_frame_run_c R hash functions on_miss else frame_run_c R hash functions on_miss) insp false fuel n (with_host w (set_tx R t (w_host w)))) as [[[j' w'] r]|];
        destruct (run R (plain_step R insp) insp false fuel tt (with_host w (set_tx R t (w_host w)))) as [[[u w2] r2]|]; try contradiction; [|exact I].
      destruct RS as (-> & <- & _ & EM & _). auto.
    Qed.
  End Generic.
End Proof.
