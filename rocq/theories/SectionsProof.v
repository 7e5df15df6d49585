(** Lemmas about gas and stack sections. *)
From Verif Require Import SectionsModel.
From Coq Require Import ZifyBool.
Open Scope Z_scope.

(** ** What a section should contain: sums over the instructions up to the section's end. *)
Section Sums.
  Variables (dyn istanbul : bool) (extra : nat -> Z).

  (** No live instruction of [l] continues the current section. *)
  Definition stops (l : list idata) : bool :=
    match find (fun d => negb (is_dead d)) l with
    | Some d => is_reachable_jumpdest dyn d
    | None => true
    end.

  Definition delta (d : idata) : Z := snd (d_io d) - fst (d_io d).

  Fixpoint sec_sum (i : nat) (l : list idata) : Z :=
    match l with
    | [] => 0
    | d :: l' =>
        if is_dead d then sec_sum (S i) l'
        else d_gas d + extra i + (if ends_section istanbul d || stops l' then 0 else sec_sum (S i) l')
    end.
  Fixpoint sec_need (l : list idata) : Z :=
    match l with
    | [] => 0
    | d :: l' =>
        if is_dead d then sec_need l'
        else Z.max (Z.max 0 (fst (d_io d)))
                   (if ends_section istanbul d || stops l' then 0 else sec_need l' - delta d)
    end.
  Fixpoint sec_growth (l : list idata) : Z :=
    match l with
    | [] => 0
    | d :: l' =>
        if is_dead d then sec_growth l'
        else Z.max 0 (delta d + (if ends_section istanbul d || stops l' then 0 else sec_growth l'))
    end.

  Definition clamp_gas (g : Z) : Z := if g <=? U32_MAX then g else U32_MAX.
  Definition clamp_stack (n g : Z) : Z * Z :=
    (if (0 <=? n) && (n <=? U16_MAX) then n else U16_MAX, if g <=? I16_MAX then g else I16_MAX).

  Definition mark (d : idata) (g n gr : Z) : idata :=
    let d1 := if clamp_gas g =? 0 then d else set_gas_section d (clamp_gas g) in
    set_stack_section (set_head d1) (clamp_stack n gr).

  (** The sections as a function of the list alone. *)
  Fixpoint go (fresh : bool) (i : nat) (l : list idata) : list idata :=
    match l with
    | [] => []
    | d :: l' =>
        if is_dead d then d :: go fresh (S i) l'
        else (if fresh || is_reachable_jumpdest dyn d
              then mark d (sec_sum i l) (sec_need l) (sec_growth l) else d)
             :: go (ends_section istanbul d) (S i) l'
    end.

  Lemma stops_cons_live d l : is_dead d = false -> stops (d :: l) = is_reachable_jumpdest dyn d.
  Proof. unfold stops. cbn. intros ->. reflexivity. Qed.
  Lemma stops_cons_dead d l : is_dead d = true -> stops (d :: l) = stops l.
  Proof. unfold stops. cbn. intros ->. reflexivity. Qed.

  Lemma sec_need_nonneg l : 0 <= sec_need l.
  Proof. induction l as [|d l IH]; cbn; [lia|]. destruct (is_dead d); [assumption|]. lia. Qed.
  Lemma sec_growth_nonneg l : 0 <= sec_growth l.
  Proof. induction l as [|d l IH]; cbn; [lia|]. destruct (is_dead d); [assumption|]. lia. Qed.

  (** ** The model computes [go]. *)
  Lemma upd_app_dead f p l : forallb is_dead p = true -> upd_first_live f (p ++ l) = p ++ upd_first_live f l.
  Proof.
    induction p as [|d p IH]; cbn; [reflexivity|]. rewrite andb_true_iff. intros [-> H].
    rewrite IH by assumption. reflexivity.
  Qed.
  Lemma upd_from_app st f p l :
    (st <= length p)%nat ->
    upd_first_live_from st f (p ++ l) =
    if forallb is_dead (skipn st p) then p ++ upd_first_live f l else upd_first_live_from st f p ++ l.
  Proof.
    revert st. induction p as [|d p IH]; intros st Hst; cbn in *.
    - assert (st = O) as -> by lia. cbn. reflexivity.
    - destruct st as [|st]; cbn.
      + destruct (is_dead d) eqn:E; cbn; [|reflexivity].
        specialize (IH O ltac:(lia)). cbn in IH.
        destruct p as [|d1 p]; cbn in *.
        * reflexivity.
        * destruct (is_dead d1) eqn:E1; cbn in *; [|reflexivity].
          rewrite IH. destruct (forallb is_dead p); reflexivity.
      + rewrite IH by lia. destruct (forallb is_dead (skipn st p)); reflexivity.
  Qed.

  (** Marking the first live instruction of the pending group in the processed prefix. *)
  Definition close (st : nat) (s : sstate) (p : list idata) : list idata :=
    upd_first_live_from st
      (fun d => set_stack_section (set_head (if clamp_gas (s_gas s) =? 0 then d else set_gas_section d (clamp_gas (s_gas s))))
                                  (clamp_stack (s_inputs s) (s_growth s))) p.

  Lemma upd_from_compose st f g p :
    (forall d, is_dead (f d) = is_dead d) ->
    upd_first_live_from st g (upd_first_live_from st f p) = upd_first_live_from st (fun d => g (f d)) p.
  Proof.
    intros Hf. revert st. induction p as [|d p IH]; intros [|st]; cbn; try reflexivity.
    - destruct (is_dead d) eqn:E; cbn.
      + rewrite E. f_equal. specialize (IH O). cbn in IH. destruct p; assumption.
      + rewrite Hf, E. reflexivity.
    - f_equal. apply IH.
  Qed.
  Lemma upd_from_id st p : upd_first_live_from st (fun d => d) p = p.
  Proof.
    revert st. induction p as [|d p IH]; intros [|st]; cbn; try reflexivity.
    - destruct (is_dead d); [|reflexivity]. f_equal. specialize (IH O). destruct p; assumption.
    - f_equal. apply IH.
  Qed.
  Lemma upd_from_ext st f g p : (forall d, f d = g d) -> upd_first_live_from st f p = upd_first_live_from st g p.
  Proof.
    intros H. revert st. induction p as [|d p IH]; intros [|st]; cbn; try reflexivity.
    - destruct (is_dead d); [|f_equal; apply H]. f_equal. specialize (IH O). destruct p; assumption.
    - f_equal. apply IH.
  Qed.
  Lemma upd_from_length st f p : length (upd_first_live_from st f p) = length p.
  Proof.
    revert st. induction p as [|d p IH]; intros [|st]; cbn; try reflexivity.
    - destruct (is_dead d); cbn; f_equal. specialize (IH O). destruct p; assumption.
    - f_equal. apply IH.
  Qed.

  Lemma is_dead_set_head d : is_dead (set_head d) = is_dead d. Proof. reflexivity. Qed.

  Lemma gas_save_eq s st l :
    s_gas_start s = st ->
    gas_save s l = upd_first_live_from st (fun d => if clamp_gas (s_gas s) =? 0 then d else set_gas_section d (clamp_gas (s_gas s))) l.
  Proof.
    intros <-. unfold gas_save. change (gas_section s) with (clamp_gas (s_gas s)).
    destruct (clamp_gas (s_gas s) =? 0); [|reflexivity]. rewrite upd_from_id. reflexivity.
  Qed.

  Lemma save_close s st l next :
    s_gas_start s = st -> s_stack_start s = st ->
    save_reset s l next = (mkS 0 next 0 0 0 next, close st s l).
  Proof.
    intros Hg Hs. unfold save_reset. cbn [stack_reset gas_reset s_inputs s_diff s_growth s_stack_start].
    f_equal. rewrite (gas_save_eq _ st) by (cbn; assumption). unfold stack_save. rewrite Hs.
    rewrite upd_from_compose by reflexivity. unfold close. apply upd_from_ext. intros d.
    cbn [stack_reset s_gas]. change (stack_section s) with (clamp_stack (s_inputs s) (s_growth s)).
    destruct (clamp_gas (s_gas s) =? 0); reflexivity.
  Qed.

  Lemma finish_close s st l :
    s_gas_start s = st -> s_stack_start s = st -> stack_save s (gas_save s l) = close st s l.
  Proof.
    intros Hg Hs. rewrite (gas_save_eq _ st) by assumption. unfold stack_save. rewrite Hs.
    rewrite upd_from_compose; [reflexivity|]. intros d. destruct (_ =? 0); reflexivity.
  Qed.

  Definition empty_group (s : sstate) : Prop :=
    s_gas s = 0 /\ s_inputs s = 0 /\ s_diff s = 0 /\ s_growth s = 0.

  (** The pending group [s] extended by the rest of its section found in [rest]. *)
  Definition extend (s : sstate) (i : nat) (rest : list idata) : sstate :=
    if stops rest then s
    else mkS (s_gas s + sec_sum i rest) (s_gas_start s)
             (Z.max (s_inputs s) (sec_need rest - s_diff s)) (s_diff s)
             (Z.max (s_growth s) (s_diff s + sec_growth rest)) (s_stack_start s).

  Definition step_one (s : sstate) (i : nat) (d : idata) : sstate :=
    gas_process (gas_process (stack_process s (d_io d)) (d_gas d)) (extra i).

  Lemma extend_step s i d rest :
    is_dead d = false -> is_reachable_jumpdest dyn d = false ->
    0 <= s_inputs s -> 0 <= s_growth s -> s_diff s <= s_growth s -> - s_diff s <= s_inputs s ->
    let s' := extend s i (d :: rest) in
    let s'' := if ends_section istanbul d then step_one s i d else extend (step_one s i d) (S i) rest in
    s_gas s' = s_gas s'' /\ s_inputs s' = s_inputs s'' /\ s_growth s' = s_growth s''.
  Proof.
    intros Hd Hj Hi Hg Hdg Hdi. cbn zeta.
    remember (extend s i (d :: rest)) as s1 eqn:Hs1. unfold extend in Hs1.
    rewrite (stops_cons_live _ _ Hd), Hj in Hs1. rewrite Hs1.
    cbn [s_gas s_inputs s_growth]. cbn [sec_sum sec_need sec_growth]. rewrite Hd.
    pose proof (sec_need_nonneg rest). pose proof (sec_growth_nonneg rest).
    destruct (ends_section istanbul d) eqn:E; cbn [orb].
    - unfold step_one, gas_process, stack_process, delta. cbn. repeat split; lia.
    - unfold extend. destruct (stops rest) eqn:Es.
      + unfold step_one, gas_process, stack_process, delta. cbn. repeat split; lia.
      + unfold step_one, gas_process, stack_process, delta. cbn. repeat split; lia.
  Qed.

  Lemma close_ext st s s' p :
    s_gas s = s_gas s' -> s_inputs s = s_inputs s' -> s_growth s = s_growth s' -> close st s p = close st s' p.
  Proof. unfold close. intros -> -> ->. reflexivity. Qed.

  Lemma close_length st s p : length (close st s p) = length p.
  Proof. apply upd_from_length. Qed.

  Lemma skipn_app_le {A} n (p l : list A) : (n <= length p)%nat -> skipn n (p ++ l) = skipn n p ++ l.
  Proof. intros H. rewrite skipn_app. replace (n - length p)%nat with O by lia. reflexivity. Qed.

  Lemma nth_error_mid {A} (p : list A) d l : nth_error (p ++ d :: l) (length p) = Some d.
  Proof. rewrite nth_error_app2, Nat.sub_diag by lia. reflexivity. Qed.

  Lemma close_app_live st s p l :
    (st <= length p)%nat -> forallb is_dead (skipn st p) = false -> close st s (p ++ l) = close st s p ++ l.
  Proof. intros H H1. unfold close. rewrite upd_from_app, H1 by assumption. reflexivity. Qed.
  Lemma close_app_dead st s p l :
    (st <= length p)%nat -> forallb is_dead (skipn st p) = true -> close st s (p ++ l) = p ++ close O s l.
  Proof. intros H H1. unfold close. rewrite upd_from_app, H1 by assumption. destruct l; reflexivity. Qed.

  Definition run_loop (s : sstate) (p rest : list idata) : list idata :=
    let '(s', l) := sec_loop dyn istanbul extra (seq (length p) (length rest)) s (p ++ rest) in
    stack_save s' (gas_save s' l).

  (** Processing one live instruction [d] at the end of prefix [p], the boundary before it handled. *)
  Definition after (s1 : sstate) (p : list idata) (d : idata) (rest : list idata) : list idata :=
    let s3 := step_one s1 (length p) d in
    if ends_section istanbul d
    then run_loop (mkS 0 (S (length p)) 0 0 0 (S (length p))) (close (s_gas_start s1) s3 (p ++ [d])) rest
    else run_loop s3 (p ++ [d]) rest.

  Lemma run_loop_dead s p d rest :
    is_dead d = true -> run_loop s p (d :: rest) = run_loop s (p ++ [d]) rest.
  Proof.
    intros Hd. unfold run_loop. cbn [length seq sec_loop]. rewrite nth_error_mid, Hd.
    rewrite app_length. cbn [length]. rewrite <- app_assoc. rewrite Nat.add_1_r. reflexivity.
  Qed.

  Lemma nth_error_mid' {A} (p : list A) d l n : length p = n -> nth_error (p ++ d :: l) n = Some d.
  Proof. intros <-. apply nth_error_mid. Qed.

  Lemma run_loop_live_cont s p d rest :
    is_dead d = false -> is_reachable_jumpdest dyn d = false ->
    s_gas_start s = s_stack_start s -> (s_gas_start s <= length p)%nat ->
    run_loop s p (d :: rest) = after s p d rest.
  Proof.
    intros Hd Hj Hst Hle. unfold run_loop, after. cbn [length seq sec_loop]. rewrite nth_error_mid, Hd.
    unfold sec_process. rewrite nth_error_mid, Hj. fold (step_one s (length p) d).
    destruct (ends_section istanbul d) eqn:E.
    - rewrite (save_close _ (s_gas_start s)) by (cbn; auto). unfold run_loop.
      rewrite close_length, app_length. cbn [length]. rewrite Nat.add_1_r.
      replace (close (s_gas_start s) (step_one s (length p) d) (p ++ d :: rest))
        with (close (s_gas_start s) (step_one s (length p) d) (p ++ [d]) ++ rest); [reflexivity|].
      rewrite <- close_app_live.
      + rewrite <- app_assoc. reflexivity.
      + rewrite app_length; cbn; lia.
      + rewrite skipn_app_le by assumption. rewrite forallb_app. cbn. rewrite Hd. rewrite andb_false_r. reflexivity.
    - unfold run_loop. rewrite app_length. cbn [length]. rewrite Nat.add_1_r, <- app_assoc. reflexivity.
  Qed.

  (** A boundary in front of [d]: close the pending group (possibly into [d] itself when empty). *)
  Lemma run_loop_live_jd s p d rest st :
    is_dead d = false -> is_reachable_jumpdest dyn d = true ->
    s_gas_start s = st -> s_stack_start s = st -> (st <= length p)%nat ->
    run_loop s p (d :: rest) =
    let n := length p in
    if forallb is_dead (skipn st p)
    then after (mkS 0 n 0 0 0 n) p (match close O s [d] with d1 :: _ => d1 | [] => d end) rest
    else after (mkS 0 n 0 0 0 n) (close st s p) d rest.
  Proof.
    intros Hd Hj Hg Hs Hle. unfold run_loop. cbn [length seq sec_loop]. rewrite nth_error_mid, Hd.
    unfold sec_process. rewrite nth_error_mid, Hj. rewrite (save_close s st) by assumption.
    fold (step_one (mkS 0 (length p) 0 0 0 (length p)) (length p) d). cbn zeta.
    destruct (forallb is_dead (skipn st p)) eqn:E.
    - rewrite close_app_dead by assumption.
      replace (close 0 s (d :: rest)) with (close 0 s [d] ++ rest)
        by (rewrite <- close_app_live; [reflexivity|cbn; lia|cbn; rewrite Hd; reflexivity]).
      unfold close at 1 2 3. cbn [upd_first_live_from upd_first_live]. rewrite Hd. cbn [app].
      match goal with |- context[p ++ ?a :: rest] => set (d1 := a) end.
      assert (Hops : d_io d1 = d_io d /\ d_gas d1 = d_gas d /\ ends_section istanbul d1 = ends_section istanbul d).
      { subst d1. destruct (_ =? 0); repeat split. }
      assert (Hsame : step_one (mkS 0 (length p) 0 0 0 (length p)) (length p) d1 = step_one (mkS 0 (length p) 0 0 0 (length p)) (length p) d).
      { unfold step_one. destruct Hops as (-> & -> & _). reflexivity. }
      assert (Hd1 : is_dead d1 = false). { subst d1. destruct (_ =? 0); exact Hd. }
      clearbody d1.
      unfold after. rewrite Hsame. destruct Hops as (_ & _ & ->). clear Hsame.
      destruct (ends_section istanbul d) eqn:E2.
      + rewrite (save_close _ (length p)) by reflexivity. unfold run_loop. cbn [s_gas_start].
        rewrite close_length, app_length. cbn [length]. rewrite Nat.add_1_r.
        replace (close (length p) _ (p ++ d1 :: rest))
          with (close (length p) (step_one (mkS 0 (length p) 0 0 0 (length p)) (length p) d) (p ++ [d1]) ++ rest); [reflexivity|].
        rewrite <- close_app_live.
        * rewrite <- app_assoc. reflexivity.
        * rewrite app_length; cbn; lia.
        * rewrite skipn_app_le by lia. rewrite forallb_app. cbn. rewrite Hd1, andb_false_r. reflexivity.
      + unfold run_loop. rewrite app_length. cbn [length]. rewrite Nat.add_1_r, <- app_assoc. reflexivity.
    - rewrite close_app_live by assumption. unfold after. rewrite !close_length. cbn [s_gas_start].
      destruct (ends_section istanbul d) eqn:E2.
      + rewrite (save_close _ (length p)) by reflexivity. unfold run_loop.
        rewrite close_length, app_length, close_length. cbn [length]. rewrite Nat.add_1_r.
        replace (close (length p) _ (close st s p ++ d :: rest))
          with (close (length p) (step_one (mkS 0 (length p) 0 0 0 (length p)) (length p) d) (close st s p ++ [d]) ++ rest); [reflexivity|].
        rewrite <- close_app_live.
        * rewrite <- app_assoc. reflexivity.
        * rewrite app_length, close_length; cbn; lia.
        * rewrite skipn_app_le by (rewrite close_length; lia). rewrite forallb_app. cbn. rewrite Hd, andb_false_r. reflexivity.
      + unfold run_loop. rewrite app_length, close_length. cbn [length]. rewrite Nat.add_1_r, <- app_assoc. reflexivity.
  Qed.

  Definition good (s : sstate) : Prop :=
    0 <= s_inputs s /\ 0 <= s_growth s /\ s_diff s <= s_growth s /\ - s_diff s <= s_inputs s.

  Definition run_spec (rest : list idata) : Prop :=
    forall p s st, s_gas_start s = st -> s_stack_start s = st -> (st <= length p)%nat -> good s ->
    (forallb is_dead (skipn st p) = true -> empty_group s -> run_loop s p rest = p ++ go true (length p) rest) /\
    (forallb is_dead (skipn st p) = false ->
     run_loop s p rest = close st (extend s (length p) rest) p ++ go false (length p) rest).

  Definition total (s1 : sstate) (n : nat) (d : idata) (rest : list idata) : sstate :=
    if ends_section istanbul d then step_one s1 n d else extend (step_one s1 n d) (S n) rest.

  Definition io_ok (d : idata) : Prop := 0 <= fst (d_io d) /\ 0 <= snd (d_io d).

  Lemma good_step s n d : io_ok d -> good s -> good (step_one s n d).
  Proof. unfold io_ok, good, step_one, gas_process, stack_process. cbn. lia. Qed.

  Lemma after_spec rest s1 p d st :
    run_spec rest -> io_ok d -> is_dead d = false ->
    s_gas_start s1 = st -> s_stack_start s1 = st -> (st <= length p)%nat -> good s1 ->
    after s1 p d rest
    = close st (total s1 (length p) d rest) (p ++ [d]) ++ go (ends_section istanbul d) (S (length p)) rest.
  Proof.
    intros IH Hio Hd Hg Hs Hle Hgood. unfold after, total. destruct (ends_section istanbul d) eqn:E.
    - destruct (IH (close (s_gas_start s1) (step_one s1 (length p) d) (p ++ [d]))
                   (mkS 0 (S (length p)) 0 0 0 (S (length p))) (S (length p))) as [H _]; try reflexivity.
      + rewrite close_length, app_length. cbn. lia.
      + unfold good. cbn. lia.
      + rewrite H.
        * rewrite close_length, app_length, Hg. cbn [length]. rewrite Nat.add_1_r. reflexivity.
        * rewrite skipn_all2; [reflexivity|]. rewrite close_length, app_length. cbn. lia.
        * repeat split.
    - destruct (IH (p ++ [d]) (step_one s1 (length p) d) st) as [_ H].
      + exact Hg.
      + exact Hs.
      + rewrite app_length. cbn. lia.
      + apply good_step; assumption.
      + rewrite H.
        * rewrite app_length. cbn [length]. rewrite Nat.add_1_r. reflexivity.
        * rewrite skipn_app_le by assumption. rewrite forallb_app. cbn. rewrite Hd, andb_false_r. reflexivity.
  Qed.

  (** A section that starts at [d]. *)
  Lemma total_zero n st d rest :
    is_dead d = false ->
    let s := total (mkS 0 st 0 0 0 st) n d rest in
    s_gas s = sec_sum n (d :: rest) /\ s_inputs s = sec_need (d :: rest) /\ s_growth s = sec_growth (d :: rest).
  Proof.
    intros Hd. cbn zeta. unfold total. cbn [sec_sum sec_need sec_growth]. rewrite Hd.
    pose proof (sec_need_nonneg rest). pose proof (sec_growth_nonneg rest).
    destruct (ends_section istanbul d) eqn:E; cbn [orb].
    - unfold step_one, gas_process, stack_process, delta. cbn. repeat split; lia.
    - unfold extend. destruct (stops rest) eqn:Es; unfold step_one, gas_process, stack_process, delta; cbn;
        repeat split; lia.
  Qed.

  Lemma close_last st s p d :
    is_dead d = false -> length p = st ->
    close st s (p ++ [d]) = p ++ [mark d (s_gas s) (s_inputs s) (s_growth s)].
  Proof.
    intros Hd <-. unfold close. rewrite upd_from_app by lia. rewrite skipn_all. cbn. rewrite Hd. reflexivity.
  Qed.

  Lemma run_spec_all rest : Forall io_ok rest -> run_spec rest.
  Proof.
    induction rest as [|d rest IH]; intros Hall p s st Hg Hs Hle Hgood.
    - unfold run_loop. cbn [length seq sec_loop]. rewrite !app_nil_r. rewrite (finish_close _ st) by assumption.
      split; intros Hf.
      + intros _. rewrite <- (app_nil_r p) at 1.
        rewrite close_app_dead by assumption. cbn. apply app_nil_r.
      + cbn [go]. unfold extend, stops. cbn. rewrite ?app_nil_r. reflexivity.
    - inversion Hall as [|? ? Hio Hall']; subst. specialize (IH Hall'). set (st := s_gas_start s) in *.
      assert (Hg : s_gas_start s = st) by reflexivity.
      destruct (is_dead d) eqn:Hd.
      + rewrite run_loop_dead by assumption.
        destruct (IH (p ++ [d]) s st Hg Hs ltac:(rewrite app_length; cbn; lia) Hgood) as [IH1 IH2].
        rewrite skipn_app_le, forallb_app in IH1, IH2 by assumption. cbn [forallb] in IH1, IH2.
        rewrite Hd, !andb_true_r in IH1, IH2.
        rewrite app_length in IH1, IH2. cbn [length] in IH1, IH2. rewrite Nat.add_1_r in IH1, IH2.
        cbn [go]. rewrite Hd. split; intros Hf.
        * intros He. rewrite IH1 by assumption. rewrite <- app_assoc. reflexivity.
        * rewrite IH2 by assumption. rewrite close_app_live by assumption. rewrite <- app_assoc. cbn [app].
          f_equal. apply close_ext; unfold extend; rewrite (stops_cons_dead _ _ Hd); cbn [sec_sum sec_need sec_growth];
            rewrite Hd; reflexivity.
      + cbn [go]. rewrite Hd. destruct (is_reachable_jumpdest dyn d) eqn:Hj.
        * rewrite (run_loop_live_jd s p d rest st) by assumption. cbn zeta. rewrite orb_true_r. split; intros Hf; rewrite Hf.
          -- intros (He1 & He2 & He3 & He4).
             unfold close. cbn [upd_first_live_from upd_first_live]. rewrite Hd, He1, He2, He4.
             change (clamp_gas 0 =? 0) with true. cbn iota.
             match goal with |- after _ _ ?a _ = _ => set (d1 := a) end.
             assert (Hd1 : is_dead d1 = false) by exact Hd.
             rewrite (after_spec rest _ p d1 (length p)) by (try reflexivity; try assumption; unfold good; cbn; lia).
             rewrite close_last by (try assumption; reflexivity).
             destruct (total_zero (length p) (length p) d1 rest Hd1) as (-> & -> & ->).
             rewrite <- app_assoc. cbn [app]. f_equal.
             change (sec_sum (length p) (d1 :: rest)) with (sec_sum (length p) (d :: rest)).
             change (sec_need (d1 :: rest)) with (sec_need (d :: rest)).
             change (sec_growth (d1 :: rest)) with (sec_growth (d :: rest)).
             f_equal. unfold mark. destruct (_ =? 0); reflexivity.
          -- rewrite (after_spec rest _ (close st s p) d (length p)) by
               (try reflexivity; try assumption; rewrite ?close_length; unfold good; cbn; lia).
             rewrite close_last by (try assumption; rewrite close_length; reflexivity).
             rewrite !close_length.
             destruct (total_zero (length p) (length p) d rest Hd) as (-> & -> & ->).
             rewrite <- app_assoc. cbn [app]. f_equal. apply close_ext; unfold extend;
               rewrite (stops_cons_live _ _ Hd), Hj; reflexivity.
        * rewrite run_loop_live_cont by (try assumption; congruence). rewrite Hg || idtac.
          rewrite (after_spec rest s p d st) by assumption. rewrite orb_false_r. split; intros Hf.
          -- intros He. assert (st_eq : forall x, close st x (p ++ [d]) = p ++ [mark d (s_gas x) (s_inputs x) (s_growth x)]).
             { intros x. rewrite close_app_dead by assumption. unfold close. cbn. rewrite Hd. reflexivity. }
             rewrite st_eq, <- app_assoc. cbn [app].
             assert (Ht : s_gas (total s (length p) d rest) = sec_sum (length p) (d :: rest) /\
                          s_inputs (total s (length p) d rest) = sec_need (d :: rest) /\
                          s_growth (total s (length p) d rest) = sec_growth (d :: rest)).
             { destruct He as (He1 & He2 & He3 & He4). destruct s as [a b c e g h]. cbn in *. subst.
               apply total_zero. assumption. }
             destruct Ht as (-> & -> & ->). reflexivity.
          -- rewrite close_app_live by assumption. rewrite <- app_assoc. cbn [app]. f_equal.
             destruct Hgood as (G1 & G2 & G3 & G4).
             destruct (extend_step s (length p) d rest Hd Hj G1 G2 G3 G4) as (E1 & E2 & E3).
             symmetry. apply close_ext; assumption.
  Qed.

  Lemma construct_sections_go l : Forall io_ok l -> construct_sections dyn istanbul extra l = go true 0 l.
  Proof.
    intros Hall. destruct (run_spec_all l Hall [] s_init 0%nat eq_refl eq_refl (le_n _)) as [H _].
    - unfold good. cbn. lia.
    - unfold run_loop in H. cbn [length app] in H. unfold construct_sections. rewrite H; [reflexivity|reflexivity|].
      repeat split.
  Qed.
End Sums.

(** ** Simulation of the per-instruction machine by the sectioned one. *)
Section Sim.
  Context {X R : Type}.
  Variables (dyn istanbul : bool) (extra : nat -> Z) (sem : nat -> Z -> Z -> X -> outcome X R).
  Variable l : list idata.

  Definition fresh0 (k : nat) : bool :=
    match prev_live l k with None => true | Some p => ends_section istanbul p end.

  Lemma go_nth fr i ll k :
    nth_error (go dyn istanbul extra fr i ll) k =
    match nth_error ll k with
    | None => None
    | Some d =>
        Some (if is_dead d then d
              else if (match fold_left (fun acc d => if is_dead d then acc else Some d) (firstn k ll) None with
                       | None => fr | Some p => ends_section istanbul p end) || is_reachable_jumpdest dyn d
                   then mark d (sec_sum dyn istanbul extra (i + k) (skipn k ll))
                             (sec_need dyn istanbul (skipn k ll)) (sec_growth dyn istanbul (skipn k ll))
                   else d)
    end.
  Proof.
    revert fr i k. induction ll as [|d ll IH]; intros fr i k.
    - destruct k; reflexivity.
    - destruct k as [|k].
      + cbn [nth_error go firstn fold_left skipn]. rewrite Nat.add_0_r.
        destruct (is_dead d) eqn:E; reflexivity.
      + cbn [go]. destruct (is_dead d) eqn:E.
        * cbn [nth_error firstn fold_left skipn]. rewrite IH, E. replace (S i + k)%nat with (i + S k)%nat by lia. reflexivity.
        * cbn [nth_error firstn fold_left skipn]. rewrite IH, E. replace (S i + k)%nat with (i + S k)%nat by lia.
          destruct (nth_error ll k) as [dk|]; [|reflexivity].
          assert (Hfold : forall q acc, fold_left (fun acc d => if is_dead d then acc else Some d) q (Some acc)
                  = match fold_left (fun acc d => if is_dead d then acc else Some d) q None with Some p => Some p | None => Some acc end).
          { clear. induction q as [|x q IH]; intros acc; cbn; [reflexivity|].
            destruct (is_dead x); [apply IH|]. rewrite IH. destruct (fold_left _ q None); reflexivity. }
          rewrite Hfold. destruct (fold_left _ (firstn k ll) None); reflexivity.
  Qed.

  Hypothesis io : Forall io_ok l.
  Hypothesis fresh_sections : Forall (fun d => d_gas_section d = 0 /\ f_head (d_flags d) = false) l.
  Hypothesis gas_ok : Forall (fun d => 0 <= d_gas d) l.
  Hypothesis extra_nonneg : forall i, 0 <= extra i.
  Hypothesis extra_end : forall i d, nth_error l i = Some d -> ends_section istanbul d = true -> extra i = 0.
  (** Bodies: amounts are nonnegative; gas only matters to observers; only enders stop. *)
  Hypothesis sem_next : forall i d g h x sp gv j x', nth_error l i = Some d -> is_dead d = false ->
    sem i g h x = ONext sp gv j x' -> extra i <= sp /\ 0 <= gv /\ goes_to dyn istanbul l i j d /\
      (observes_gas istanbul (d_op d) = false -> gv = 0).
  Hypothesis sem_stop : forall i d g h x sp r x', nth_error l i = Some d ->
    sem i g h x = OStop sp r x' -> extra i <= sp /\ ends_frame (d_op d) = true.
  Hypothesis sem_gas : forall i d g g' h x, nth_error l i = Some d -> observes_gas istanbul (d_op d) = false ->
    sem i g h x = sem i g' h x.

  Let P := construct_sections dyn istanbul extra l.
  Let rstep := ref_step sem istanbul l.
  Let cstep := comp_step sem istanbul extra P.
  Let SS k := sec_sum dyn istanbul extra k (skipn k l).
  Let NN k := sec_need dyn istanbul (skipn k l).
  Let GG k := sec_growth dyn istanbul (skipn k l).

  Hypothesis sums_fit : forall k, entry dyn istanbul l k -> SS k <= U32_MAX.

  Lemma observes_ends d : observes_gas istanbul (d_op d) = true -> ends_section istanbul d = true.
  Proof.
    unfold observes_gas, ends_section, may_suspend, requires_gasleft,
      OP_CALL, OP_CALLCODE, OP_DELEGATECALL, OP_STATICCALL, OP_CREATE, OP_CREATE2, OP_GAS, OP_SSTORE.
    cbn [existsb]. destruct istanbul; lia.
  Qed.
  Lemma ends_frame_ends d : ends_frame (d_op d) = true -> ends_section istanbul d = true.
  Proof.
    unfold ends_frame, ends_section, is_branching, is_diverging, OP_STOP, OP_RETURN, OP_REVERT, OP_SELFDESTRUCT.
    cbn [existsb]. lia.
  Qed.

  Lemma skipn_cons {A} (ll : list A) k d : nth_error ll k = Some d -> skipn k ll = d :: skipn (S k) ll.
  Proof.
    revert k. induction ll as [|a ll IH]; intros [|k] H; cbn in *; try discriminate.
    - inversion H. reflexivity.
    - rewrite (IH _ H). destruct ll; reflexivity.
  Qed.

  Lemma Forall_nth {A} (Q : A -> Prop) ll k d : Forall Q ll -> nth_error ll k = Some d -> Q d.
  Proof. intros H E. rewrite Forall_forall in H. apply H. eapply nth_error_In; eassumption. Qed.

  Lemma SS_eq k d : nth_error l k = Some d -> is_dead d = false ->
    SS k = d_gas d + extra k + (if ends_section istanbul d || stops dyn (skipn (S k) l) then 0 else SS (S k)) /\
    NN k = Z.max (Z.max 0 (fst (d_io d))) (if ends_section istanbul d || stops dyn (skipn (S k) l) then 0 else NN (S k) - delta d) /\
    GG k = Z.max 0 (delta d + (if ends_section istanbul d || stops dyn (skipn (S k) l) then 0 else GG (S k))).
  Proof.
    intros E Hd. unfold SS, NN, GG. rewrite (skipn_cons _ _ _ E). cbn [sec_sum sec_need sec_growth]. rewrite Hd. repeat split.
  Qed.

  Lemma next_stops i : stops dyn (skipn (S i) l) = match next_live l i with None => true | Some d' => is_reachable_jumpdest dyn d' end.
  Proof. reflexivity. Qed.

  (** If the section starting at (or continuing through) [i] cannot be afforded or does not fit the
      stack, the per-instruction machine fails before observing anything. *)
  Lemma ref_fails n i d g h x :
    (length l - i <= n)%nat -> nth_error l i = Some d -> is_dead d = false -> 0 <= h <= 1024 ->
    g < SS i \/ h < NN i \/ 1024 < h + GG i ->
    run rstep (mkM i g h x) [] MFail.
  Proof.
    revert i d g h x. induction n as [|n IH]; intros i d g h x Hn E Hd Hh Hbad.
    - exfalso. assert (i < length l)%nat by (apply nth_error_Some; congruence). lia.
    - destruct (rstep (mkM i g h x)) as [o res] eqn:Est.
      pose proof Est as Est0.
      unfold rstep, ref_step in Est. cbn [m_i m_gas m_len m_x] in Est. rewrite E in Est.
      destruct (SS_eq i d E Hd) as (ES & EN & EG).
      pose proof (Forall_nth _ _ _ _ io E) as [Hi0 Ho0]. unfold delta in *.
      pose proof (extra_nonneg i) as Hx0.
      destruct (f_disabled (d_flags d) || f_unknown (d_flags d)) eqn:Hbadop.
      { apply pair_equal_spec in Est as [<- <-]. apply run_fail. assumption. }
      destruct (g <? d_gas d) eqn:Eg.
      { apply pair_equal_spec in Est as [<- <-]. apply run_fail. assumption. }
      destruct (h <? fst (d_io d)) eqn:Eh.
      { apply pair_equal_spec in Est as [<- <-]. apply run_fail. assumption. }
      destruct (1024 <? h - fst (d_io d) + snd (d_io d)) eqn:Eo.
      { apply pair_equal_spec in Est as [<- <-]. apply run_fail. assumption. }
      unfold body in Est. cbn [m_i m_gas m_len m_x] in Est.
      destruct (ends_section istanbul d) eqn:Een.
      { (* the checks of an ender are exactly its own *)
        cbn [orb] in *. rewrite (extra_end i d E Een) in *.
        exfalso. lia. }
      assert (Hno : observes_gas istanbul (d_op d) = false).
      { destruct (observes_gas istanbul (d_op d)) eqn:Q; [|reflexivity]. apply observes_ends in Q. congruence. }
      rewrite Hno in Est. cbn [orb] in *.
      destruct (sem i (g - d_gas d) h x) as [sp gv j x'|sp r x'|] eqn:Es.
      + destruct (sem_next _ _ _ _ _ _ _ _ _ E Hd Es) as (Hsp & Hgv & Hgo & Hz). specialize (Hz Hno). subst gv.
        destruct (g - d_gas d <? sp - 0) eqn:Esp.
        { apply pair_equal_spec in Est as [<- <-]. apply run_fail. assumption. }
        apply pair_equal_spec in Est as [<- <-].
        destruct (stops dyn (skipn (S i) l)) eqn:Estop.
        { exfalso. lia. }
        rewrite next_stops in Estop.
        assert (Hj : j = S i /\ exists d', nth_error l j = Some d' /\ is_dead d' = false).
        { destruct Hgo as [H|[_ [H|H]]]; [exact H|congruence|].
          destruct (next_live l i); [congruence|discriminate]. }
        destruct Hj as (-> & d' & E' & Hd').
        change (@nil (mstate X)) with (@nil (mstate X) ++ []).
        eapply run_next; [eassumption|].
        eapply IH; [|eassumption|eassumption| |]; try lia.
      + exfalso. destruct (sem_stop _ _ _ _ _ _ _ _ E Es) as [_ Hst]. apply ends_frame_ends in Hst. congruence.
      + apply pair_equal_spec in Est as [<- <-]. apply run_fail. assumption.
  Qed.

  Lemma entry_nth k : entry dyn istanbul l k ->
    exists d, nth_error l k = Some d /\ is_dead d = false /\ nth_error P k = Some (mark d (SS k) (NN k) (GG k)).
  Proof.
    intros (d & E & Hd & He). exists d. split; [assumption|]. split; [assumption|].
    unfold P. rewrite construct_sections_go by exact io. rewrite go_nth, E, Hd.
    fold (prev_live l k).
    replace (match prev_live l k with None => true | Some p => ends_section istanbul p end || is_reachable_jumpdest dyn d)
      with true; [reflexivity|].
    symmetry. destruct He as [He|He]; [rewrite He; apply orb_true_r|].
    destruct (prev_live l k); [rewrite He|]; reflexivity.
  Qed.
  Lemma nonentry_nth k d : nth_error l k = Some d -> is_dead d = false -> ~ entry dyn istanbul l k ->
    nth_error P k = Some d.
  Proof.
    intros E Hd Hne. unfold P. rewrite construct_sections_go by exact io. rewrite go_nth, E, Hd.
    fold (prev_live l k).
    destruct (match prev_live l k with None => true | Some p => ends_section istanbul p end || is_reachable_jumpdest dyn d) eqn:Q;
      [|reflexivity].
    exfalso. apply Hne. exists d. split; [assumption|]. split; [assumption|].
    apply orb_true_iff in Q as [Q|Q]; [right|left; assumption].
    destruct (prev_live l k); [assumption|exact I].
  Qed.
  Lemma entry_dec k : entry dyn istanbul l k \/ ~ entry dyn istanbul l k.
  Proof.
    unfold entry. destruct (nth_error l k) as [d|]; [|right; intros (d & H & _); discriminate].
    destruct (is_dead d) eqn:Hd; [right; intros (d' & H & H1 & _); congruence|].
    destruct (is_reachable_jumpdest dyn d) eqn:Hj; [left; exists d; tauto|].
    destruct (prev_live l k) as [p|]; [|left; exists d; tauto].
    destruct (ends_section istanbul p) eqn:Ep; [left; exists d; tauto|].
    right. intros (d' & H & _ & [H1|H1]); congruence.
  Qed.

  Lemma check_clamped n g h : 0 <= n -> 0 <= g -> 0 <= h <= 1024 ->
    check_stack_bounds (clamp_stack n g) h = negb (h <? n) && negb (1024 <? h + g).
  Proof.
    intros Hn Hg Hh. unfold check_stack_bounds, clamp_stack, STACK_CAP, U16_MAX, I16_MAX.
    change (2 ^ 16 - 1) with 65535. change (2 ^ 15 - 1) with 32767.
    destruct ((0 <=? n) && (n <=? 65535)) eqn:E1; destruct (g <=? 32767) eqn:E2;
      repeat match goal with |- context[if ?b then _ else _] => destruct b eqn:? end; lia.
  Qed.

  Definition matching (sr sc : mstate X) : Prop :=
    m_i sr = m_i sc /\ m_len sr = m_len sc /\ m_x sr = m_x sc /\ 0 <= m_len sr <= 1024 /\ 0 <= m_gas sc /\
    exists d, nth_error l (m_i sr) = Some d /\ is_dead d = false /\
      ((entry dyn istanbul l (m_i sr) /\ m_gas sr = m_gas sc) \/
       (~ entry dyn istanbul l (m_i sr) /\ m_gas sr = m_gas sc + SS (m_i sr) /\
        NN (m_i sr) <= m_len sr /\ m_len sr + GG (m_i sr) <= 1024)).

  Lemma prev_live_S i d : nth_error l i = Some d -> is_dead d = false -> prev_live l (S i) = Some d.
  Proof.
    intros E Hd. unfold prev_live.
    assert (H : firstn (S i) l = firstn i l ++ [d]).
    { clear -E. revert i E. induction l as [|a ll IH]; intros [|i] E; cbn in *; try discriminate.
      - inversion E. reflexivity.
      - f_equal. apply IH. assumption. }
    rewrite H, fold_left_app. cbn. rewrite Hd. reflexivity.
  Qed.
  Lemma next_live_S i d : nth_error l (S i) = Some d -> is_dead d = false -> next_live l i = Some d.
  Proof. intros E Hd. unfold next_live. rewrite (skipn_cons _ _ _ E). cbn. rewrite Hd. reflexivity. Qed.

  (** Both bodies, once the sectioned machine has paid for the rest of the section. *)
  Lemma body_sim i d g h x :
    nth_error l i = Some d -> is_dead d = false ->
    f_disabled (d_flags d) = false -> f_unknown (d_flags d) = false ->
    0 <= h <= 1024 -> SS i <= g -> NN i <= h -> h + GG i <= 1024 ->
    (exists o, body sem istanbul d (extra i) (mkM i g h x) (g - SS i) = (o, MFail) /\ run rstep (mkM i g h x) o MFail) \/
    (exists o g' r x', body sem istanbul d (extra i) (mkM i g h x) (g - SS i) = (o, MDone g' r x') /\
                       rstep (mkM i g h x) = (o, MDone g' r x')) \/
    (exists o sc sr, body sem istanbul d (extra i) (mkM i g h x) (g - SS i) = (o, MNext sc) /\
                     rstep (mkM i g h x) = (o, MNext sr) /\ matching sr sc).
  Proof.
    intros E Hd Hdis Hunk Hh Hg Hn Hgr.
    destruct (SS_eq i d E Hd) as (ES & EN & EG).
    pose proof (Forall_nth _ _ _ _ io E) as [Hi0 Ho0]. unfold delta in *.
    pose proof (Forall_nth _ _ _ _ gas_ok E) as Hg0. cbn beta in Hg0.
    pose proof (extra_nonneg i) as Hx0.
    assert (HSS0 : 0 <= SS (S i) /\ 0 <= NN (S i) /\ 0 <= GG (S i)).
    { split; [|split; [apply sec_need_nonneg|apply sec_growth_nonneg]].
      unfold SS. clear -gas_ok extra_nonneg. generalize (S i) at 1 as q. intros q.
      assert (HF : Forall (fun d => 0 <= d_gas d) (skipn (S i) l)).
      { apply Forall_forall. intros d Hin. rewrite Forall_forall in gas_ok. apply gas_ok.
        rewrite <- (firstn_skipn (S i) l). apply in_or_app. right. assumption. }
      revert q. induction HF as [|d ll Hd HF IH]; intros q; cbn; [lia|].
      destruct (is_dead d); [apply IH|]. specialize (IH (S q)). pose proof (extra_nonneg q).
      destruct (ends_section istanbul d || stops dyn ll); lia. }
    destruct HSS0 as (HSS0 & HNN0 & HGG0).
    set (lst := ends_section istanbul d || stops dyn (skipn (S i) l)) in *.
    assert (Hrs : rstep (mkM i g h x) = body sem istanbul d 0 (mkM i g h x) (g - d_gas d)).
    { unfold rstep, ref_step. cbn [m_i m_gas m_len m_x]. rewrite E, Hdis, Hunk. cbn [orb].
      replace (g <? d_gas d) with false by (destruct lst; lia).
      replace (h <? fst (d_io d)) with false by lia.
      replace (1024 <? h - fst (d_io d) + snd (d_io d)) with false by (destruct lst; lia).
      reflexivity. }
    destruct (ends_section istanbul d) eqn:Een.
    - (* ender: same gas in both machines *)
      cbn [orb] in lst. subst lst. cbv iota in EN, EG, ES. rewrite (extra_end i d E Een) in *.
      replace (g - SS i) with (g - d_gas d) by lia. rewrite <- Hrs.
      destruct (rstep (mkM i g h x)) as [o [sr|g' r x'|]] eqn:Est.
      + right; right. exists o, sr, sr. split; [reflexivity|]. split; [reflexivity|].
        rename Hrs into Eb. symmetry in Eb. unfold body in Eb. cbn [m_i m_gas m_len m_x] in Eb.
        destruct (sem i (g - d_gas d) h x) as [sp gv j x'|sp r x'|] eqn:Es.
        * destruct (sem_next _ _ _ _ _ _ _ _ _ E Hd Es) as (Hsp & Hgv & Hgo & _).
          destruct (_ <? _) eqn:Esp; [discriminate|].
          apply pair_equal_spec in Eb as [_ Eb]. inversion Eb; subst sr; clear Eb.
          repeat split; cbn [m_i m_gas m_len m_x]; try lia.
          assert (He : entry dyn istanbul l j).
          { destruct Hgo as [(-> & d' & E' & Hd')|[He _]]; [|exact He].
            exists d'. split; [assumption|]. split; [assumption|]. right.
            rewrite (prev_live_S i d) by assumption. assumption. }
          destruct He as (d' & E' & Hd' & He). exists d'. split; [assumption|]. split; [assumption|].
          left. split; [|lia]. exists d'. auto.
        * destruct (_ <? _); discriminate.
        * discriminate.
      + right; left. exists o, g', r, x'. split; reflexivity.
      + left. exists o. split; [reflexivity|]. apply run_fail. assumption.
    - assert (Hno : observes_gas istanbul (d_op d) = false).
      { destruct (observes_gas istanbul (d_op d)) eqn:Q; [|reflexivity]. apply observes_ends in Q. congruence. }
      rewrite Hrs. unfold body. cbn [m_i m_gas m_len m_x]. rewrite Hno.
      rewrite (sem_gas i d (g - SS i) (g - d_gas d) h x E Hno).
      cbn [orb] in lst.
      destruct (sem i (g - d_gas d) h x) as [sp gv j x'|sp r x'|] eqn:Es.
      + destruct (sem_next _ _ _ _ _ _ _ _ _ E Hd Es) as (Hsp & Hgv & Hgo & Hz). specialize (Hz Hno). subst gv.
        destruct (g - SS i <? sp - extra i) eqn:E1.
        * left. exists []. split; [reflexivity|].
          destruct (g - d_gas d <? sp - 0) eqn:E2.
          { apply run_fail. rewrite Hrs. unfold body. cbn [m_i m_gas m_len m_x]. rewrite Hno, Es, E2. reflexivity. }
          assert (Hrs' : rstep (mkM i g h x) = ([], MNext (mkM j (g - d_gas d - (sp - 0) + 0) (h - fst (d_io d) + snd (d_io d)) x'))).
          { rewrite Hrs. unfold body. cbn [m_i m_gas m_len m_x]. rewrite Hno, Es, E2. reflexivity. }
          change (@nil (mstate X)) with (@nil (mstate X) ++ []).
          eapply run_next; [exact Hrs'|].
          destruct lst eqn:Elst; [exfalso; lia|]. subst lst. rewrite next_stops in Elst.
          assert (Hj : j = S i /\ exists d', nth_error l j = Some d' /\ is_dead d' = false).
          { destruct Hgo as [H|[_ [H|H]]]; [exact H|congruence|].
            destruct (next_live l i); [congruence|discriminate]. }
          destruct Hj as (-> & d' & E' & Hd').
          eapply ref_fails; [apply le_n|eassumption|eassumption| |]; lia.
        * right; right.
          replace (g - d_gas d <? sp - 0) with false by (destruct lst; lia).
          eexists [], _, _. split; [reflexivity|]. split; [reflexivity|].
          repeat split; cbn [m_i m_gas m_len m_x]; try (destruct lst; lia).
          destruct lst eqn:Elst; subst lst; rewrite next_stops in Elst.
          -- assert (He : entry dyn istanbul l j).
             { destruct Hgo as [(-> & d' & E' & Hd')|[He _]]; [|exact He].
               exists d'. split; [assumption|]. split; [assumption|]. left.
               rewrite (next_live_S i d') in Elst by assumption. assumption. }
             destruct He as (d' & E' & Hd' & He). exists d'. split; [assumption|]. split; [assumption|].
             left. split; [|lia]. exists d'. auto.
          -- assert (Hj : j = S i /\ exists d', nth_error l j = Some d' /\ is_dead d' = false).
             { destruct Hgo as [H|[_ [H|H]]]; [exact H|congruence|].
               destruct (next_live l i); [congruence|discriminate]. }
             destruct Hj as (-> & d' & E' & Hd'). exists d'. split; [assumption|]. split; [assumption|].
             right. split; [|lia].
             intros (d'' & E'' & Hd'' & He). rewrite E' in E''. inversion E''; subst d''. clear E''.
             rewrite (next_live_S i d') in Elst by assumption.
             rewrite (prev_live_S i d) in He by assumption. destruct He; congruence.
      + exfalso. destruct (sem_stop _ _ _ _ _ _ _ _ E Es) as [_ Hst]. apply ends_frame_ends in Hst. congruence.
      + left. exists []. split; [reflexivity|]. apply run_fail. rewrite Hrs. unfold body. cbn [m_i m_gas m_len m_x].
        rewrite Hno, Es. reflexivity.
  Qed.

  Lemma sim_step sr sc : matching sr sc ->
    (exists o, cstep sc = (o, MFail) /\ run rstep sr o MFail) \/
    (exists o g' r x', cstep sc = (o, MDone g' r x') /\ rstep sr = (o, MDone g' r x')) \/
    (exists o sc' sr', cstep sc = (o, MNext sc') /\ rstep sr = (o, MNext sr') /\ matching sr' sc').
  Proof.
    destruct sr as [i g h x], sc as [i' gc h' x']. unfold matching. cbn [m_i m_gas m_len m_x].
    intros (<- & <- & <- & Hh & Hgc & d & E & Hd & Hc).
    assert (Hbody : forall disc s g1 g2 e, body sem istanbul e disc (mkM (m_i s) g2 (m_len s) (m_x s)) g1 = body sem istanbul e disc s g1)
      by reflexivity.
    assert (Hdead_or : f_disabled (d_flags d) || f_unknown (d_flags d) = true -> run rstep (mkM i g h x) [] MFail).
    { intros Hq. apply run_fail. unfold rstep, ref_step. cbn [m_i]. rewrite E, Hq. reflexivity. }
    destruct Hc as [(He & ->)|(Hne & -> & Hn & Hgr)].
    - destruct (entry_nth i He) as (d0 & E0 & _ & EP). rewrite E in E0. inversion E0; subst d0; clear E0.
      unfold cstep, comp_step. cbn [m_i m_gas m_len m_x]. rewrite EP. unfold prologue.
      set (md := mark d (SS i) (NN i) (GG i)) in *.
      assert (Hfl : f_disabled (d_flags md) = f_disabled (d_flags d) /\ f_unknown (d_flags md) = f_unknown (d_flags d)
                    /\ f_head (d_flags md) = true /\ d_stack_section md = clamp_stack (NN i) (GG i)
                    /\ d_op md = d_op d /\ d_io md = d_io d).
      { subst md. unfold mark. destruct (_ =? 0); repeat split. }
      assert (Hgs : d_gas_section md = SS i).
      { subst md. unfold mark. pose proof (sums_fit i He) as Hfit. unfold clamp_gas.
        replace (SS i <=? U32_MAX) with true by lia. destruct (SS i =? 0) eqn:Ez; cbn; [|reflexivity].
        destruct (Forall_nth _ _ _ _ fresh_sections E) as [-> _]. lia. }
      destruct Hfl as (-> & -> & -> & -> & Hop & Hio). rewrite Hgs.
      destruct (f_disabled (d_flags d)) eqn:Hdis; [left; exists []; split; [reflexivity|apply Hdead_or; reflexivity]|].
      destruct (f_unknown (d_flags d)) eqn:Hunk; [left; exists []; split; [reflexivity|apply Hdead_or; reflexivity]|].
      destruct (gc <? SS i) eqn:Eg.
      { left. exists []. split; [reflexivity|]. eapply ref_fails; [apply le_n|eassumption|eassumption|lia|lia]. }
      rewrite check_clamped by (first [lia|apply sec_need_nonneg|apply sec_growth_nonneg]).
      cbn [andb].
      destruct (negb (negb (h <? NN i) && negb (1024 <? h + GG i))) eqn:Ec.
      { left. exists []. split; [reflexivity|]. eapply ref_fails; [apply le_n|eassumption|eassumption|lia|lia]. }
      assert (Hmd : body sem istanbul md (extra i) (mkM i gc h x) (gc - SS i) = body sem istanbul d (extra i) (mkM i gc h x) (gc - SS i)).
      { unfold body. rewrite Hop, Hio. reflexivity. }
      rewrite Hmd. eapply body_sim; try eassumption; try lia.
    - unfold cstep, comp_step. cbn [m_i m_gas m_len m_x]. rewrite (nonentry_nth i d E Hd Hne). unfold prologue.
      destruct (Forall_nth _ _ _ _ fresh_sections E) as [Hz Hhd]. rewrite Hz, Hhd.
      destruct (f_disabled (d_flags d)) eqn:Hdis; [left; exists []; split; [reflexivity|apply Hdead_or; reflexivity]|].
      destruct (f_unknown (d_flags d)) eqn:Hunk; [left; exists []; split; [reflexivity|apply Hdead_or; reflexivity]|].
      replace (gc <? 0) with false by lia. cbn [andb].
      pose proof (body_sim i d (gc + SS i) h x E Hd Hdis Hunk Hh ltac:(lia) Hn Hgr) as HB.
      replace (gc + SS i - SS i) with (gc - 0) in HB by lia. exact HB.
  Qed.

  Lemma run_det {step : mstate X -> list (mstate X) * mres X R} s t1 f1 t2 f2 :
    run step s t1 f1 -> run step s t2 f2 -> t1 = t2 /\ f1 = f2.
  Proof.
    intros H1. revert t2 f2. induction H1 as [s o E|s o g r x E|s o s' t f E H IH]; intros t2 f2 H2;
      inversion H2; subst; try congruence.
    - rewrite E in H. inversion H. auto.
    - rewrite E in H. inversion H; subst; auto.
    - rewrite E in H0. inversion H0; subst. destruct (IH _ _ H1) as [-> ->]. auto.
  Qed.

  Lemma sections_sim sr sc t f : matching sr sc -> run rstep sr t f <-> run cstep sc t f.
  Proof.
    intros Hm. split; intros Hr.
    - revert sc Hm. induction Hr as [s o E|s o g r x E|s o s' t f E H IH]; intros sc Hm;
        destruct (sim_step _ _ Hm) as [(o1 & Ec & Hf)|[(o1 & g1 & r1 & x1 & Ec & Er)|(o1 & sc' & sr' & Ec & Er & Hm')]].
      + assert (Hr : run rstep s o MFail) by (apply run_fail; assumption).
        destruct (run_det _ _ _ _ _ Hr Hf) as [-> _]. apply run_fail. assumption.
      + congruence.
      + congruence.
      + assert (Hr : run rstep s o (MDone g r x)) by (apply run_done; assumption).
        destruct (run_det _ _ _ _ _ Hr Hf) as [_ Hx]. discriminate.
      + rewrite E in Er. inversion Er; subst. apply run_done. assumption.
      + congruence.
      + assert (Hr : run rstep s (o ++ t) f) by (eapply run_next; eassumption).
        destruct (run_det _ _ _ _ _ Hr Hf) as [-> ->]. apply run_fail. assumption.
      + congruence.
      + rewrite E in Er. inversion Er; subst. eapply run_next; [eassumption|]. apply IH. assumption.
    - revert sr Hm. induction Hr as [s o E|s o g r x E|s o s' t f E H IH]; intros sr Hm;
        destruct (sim_step _ _ Hm) as [(o1 & Ec & Hf)|[(o1 & g1 & r1 & x1 & Ec & Er)|(o1 & sc' & sr' & Ec & Er & Hm')]];
        rewrite E in Ec; inversion Ec; subst.
      + assumption.
      + apply run_done. assumption.
      + eapply run_next; [eassumption|]. apply IH. assumption.
  Qed.

  Lemma sections_sim_entry i g h x t f :
    entry dyn istanbul l i -> 0 <= g -> 0 <= h <= 1024 ->
    run rstep (mkM i g h x) t f <-> run cstep (mkM i g h x) t f.
  Proof.
    intros He Hg Hh. apply sections_sim. repeat split; cbn [m_i m_gas m_len m_x]; try lia.
    pose proof He as (d & E & Hd & _). exists d. split; [assumption|]. split; [assumption|]. left. auto.
  Qed.
End Sim.

Lemma sum_bound dyn istanbul extra l c :
  (forall i d, nth_error l i = Some d -> d_gas d + extra i <= c) -> 0 <= c ->
  forall n i ll, (length ll <= n)%nat -> (forall k d, nth_error ll k = Some d -> nth_error l (i + k) = Some d) ->
  sec_sum dyn istanbul extra i ll <= c * Z.of_nat (length ll).
Proof.
  intros Hc Hc0. induction n as [|n IH]; intros i ll Hn Hsub.
  - destruct ll; cbn in *; [lia|lia].
  - destruct ll as [|d ll]; cbn [length sec_sum]; [lia|]. cbn in Hn.
    assert (H1 : sec_sum dyn istanbul extra (S i) ll <= c * Z.of_nat (length ll)).
    { apply IH; [lia|]. intros k d' Hk. replace (S i + k)%nat with (i + S k)%nat by lia. apply Hsub. exact Hk. }
    assert (H0 : d_gas d + extra i <= c).
    { apply Hc. rewrite <- (Nat.add_0_r i). apply Hsub. reflexivity. }
    destruct (is_dead d); [lia|]. destruct (_ || _); lia.
Qed.

Lemma sections_fit dyn istanbul extra l :
  (forall i d, nth_error l i = Some d -> d_gas d + extra i <= 65535) -> Z.of_nat (length l) <= 65537 ->
  forall k, sec_sum dyn istanbul extra k (skipn k l) <= U32_MAX.
Proof.
  intros H Hlen k.
  pose proof (sum_bound dyn istanbul extra l 65535 H ltac:(lia) (length (skipn k l)) k (skipn k l) (le_n _)) as Hb.
  assert (Hsub : forall k0 d, nth_error (skipn k l) k0 = Some d -> nth_error l (k + k0) = Some d).
  { clear. revert k. induction l as [|a l IH]; intros k k0 d E.
    - rewrite skipn_nil in E. destruct k0; discriminate.
    - destruct k; [exact E|]. cbn. apply IH. exact E. }
  specialize (Hb Hsub). rewrite skipn_length in Hb. unfold U32_MAX. change (2 ^ 32 - 1) with (65535 * 65537). lia.
Qed.

Lemma sections_unobservable {X R} dyn istanbul extra (sem : nat -> Z -> Z -> X -> outcome X R) l i g h x t f :
  unsectioned l -> bodies_ok dyn istanbul extra sem l ->
  (forall i d, nth_error l i = Some d -> d_gas d + extra i <= 65535) -> Z.of_nat (length l) <= 65537 ->
  entry dyn istanbul l i -> 0 <= g -> 0 <= h <= 1024 ->
  run (ref_step sem istanbul l) (mkM i g h x) t f <->
  run (comp_step sem istanbul extra (construct_sections dyn istanbul extra l)) (mkM i g h x) t f.
Proof.
  intros Hu [B1 B2 B3 B4 B5] Hc Hlen He Hg Hh.
  apply sections_sim_entry; try assumption.
  - eapply Forall_impl; [|exact Hu]. cbn. unfold io_ok. intros a H. lia.
  - eapply Forall_impl; [|exact Hu]. cbn. intros a H. tauto.
  - eapply Forall_impl; [|exact Hu]. cbn. intros a H. tauto.
  - intros k _. apply sections_fit; assumption.
Qed.

(** ** One check for a straight line of stack effects. *)
Lemma stack_fold ios s :
  Forall (fun io => 0 <= fst io /\ 0 <= snd io) ios -> good s ->
  let s' := fold_left stack_process ios s in
  good s' /\
  forall h, 0 <= h <= 1024 -> s_inputs s <= h -> h + s_growth s <= 1024 ->
    (s_inputs s' <= h /\ h + s_growth s' <= 1024 <-> stack_run ios (h + s_diff s) = true).
Proof.
  revert s. induction ios as [|[i o] ios IH]; intros s Hio Hg; cbn [fold_left]; cbn zeta.
  - split; [assumption|]. intros h Hh H1 H2. cbn. tauto.
  - inversion Hio as [|? ? [Hi Ho] Hio']; subst. cbn [fst snd] in *.
    assert (Hg' : good (stack_process s (i, o))) by (unfold good, stack_process in *; cbn in *; lia).
    destruct (IH _ Hio' Hg') as [G1 G2]. split; [assumption|].
    intros h Hh H1 H2. cbn [stack_run].
    assert (Hmono : forall q s0, s_inputs s0 <= s_inputs (fold_left stack_process q s0) /\
                                 s_growth s0 <= s_growth (fold_left stack_process q s0)).
    { clear. induction q as [|e q IH]; intros s0; cbn [fold_left]; [lia|].
      specialize (IH (stack_process s0 e)). unfold stack_process at 1 4 in IH. cbn [s_inputs s_growth] in IH. lia. }
    specialize (Hmono ios (stack_process s (i, o))). unfold stack_process at 1 4 in Hmono. cbn [s_inputs s_growth fst snd] in Hmono.
    destruct (((i <=? h + s_diff s) && (h + s_diff s - i + o <=? 1024))%bool) eqn:E.
    + rewrite andb_true_iff in E. destruct E as [E1 E2]. cbn [andb].
      replace (h + s_diff s - i + o) with (h + s_diff (stack_process s (i, o))) by (cbn; lia).
      apply G2; [assumption| |]; cbn [s_inputs s_growth stack_process fst snd]; lia.
    + cbn [andb]. split; [|discriminate]. intros [Ha Hb]. exfalso. lia.
Qed.

Lemma stack_check_spec ios h :
  Forall (fun io => 0 <= fst io /\ 0 <= snd io) ios -> 0 <= h <= 1024 ->
  check_stack_bounds (from_stack_io ios) h = stack_run ios h.
Proof.
  intros Hio Hh. destruct (stack_fold ios s_init Hio) as [Hg Hs]; [unfold good; cbn; lia|].
  specialize (Hs h Hh). cbn [s_inputs s_growth s_diff s_init] in Hs. rewrite Z.add_0_r in Hs.
  unfold from_stack_io. set (s := fold_left stack_process ios s_init) in *. clearbody s.
  change (stack_section s) with (clamp_stack (s_inputs s) (s_growth s)).
  unfold good in Hg. rewrite check_clamped by lia.
  destruct (stack_run ios h); destruct (h <? s_inputs s) eqn:E1; destruct (1024 <? h + s_growth s) eqn:E2; cbn; try reflexivity; lia.
Qed.
