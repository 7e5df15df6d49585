(** Lemmas about suspension. *)
From Verif Require Import ResumeModel ResumeSpec CfgProof.
From Coq Require Import ZifyBool Lia.
Open Scope Z_scope.

(** ** The table. *)
Definition table_ok (p : bc) (t : rtab) : Prop :=
  map snd (rt_values t) = seq 1 (length (rt_blocks t)) /\
  forall k i v, nth_error (rt_values t) k = Some (i, v) -> exists b, nth_error (rt_blocks t) (v - 1) = Some b /\ effective_next_entry p i = Some b.
Lemma emit_ok p t i d t' : table_ok p t -> emit_inst p t i d = Some t' -> table_ok p t' /\
  rt_values t' = rt_values t ++ (if emits_suspend d then [(i, (length (rt_blocks t) + 1)%nat)] else []).
Proof.
  intros [A B]. unfold emit_inst. destruct (emits_suspend d); [|intros E; injection E as <-; rewrite app_nil_r; split; [split; assumption|reflexivity]].
  destruct (effective_next_entry p i) as [b|] eqn:En; [|discriminate]. intros E. injection E as <-. split; [|reflexivity]. split; cbn [rt_values rt_blocks].
  - rewrite map_app, app_length, A. cbn. rewrite seq_app. cbn [seq]. f_equal. f_equal. lia.
  - intros k i0 v H.
    assert (LV : length (rt_values t) = length (rt_blocks t)) by (rewrite <- (map_length snd), A, seq_length; reflexivity).
    destruct (Nat.lt_ge_cases k (length (rt_values t))) as [Lt|Ge].
    + rewrite nth_error_app1 in H by exact Lt. destruct (B k i0 v H) as (b0 & Hb & En0). exists b0. split; [|exact En0].
      rewrite nth_error_app1; [exact Hb|]. apply nth_error_Some. congruence.
    + rewrite nth_error_app2 in H by exact Ge. destruct (k - length (rt_values t))%nat as [|m]; [|destruct m; discriminate]. cbn in H. injection H as <- <-.
      exists b. split; [|exact En]. rewrite nth_error_app2 by lia. replace (length (rt_blocks t) + 1 - 1 - length (rt_blocks t))%nat with 0%nat by lia. reflexivity.
Qed.
Lemma emit_from_ok p : forall l t i t', table_ok p t -> emit_from p t i l = Some t' -> table_ok p t' /\
  map fst (rt_values t') = map fst (rt_values t) ++
    map (fun k => (i + k)%nat) (filter (fun k => match nth_error l k with Some d => emits_suspend d | None => false end) (seq 0 (length l))).
Proof.
  induction l as [|d l IH]; intros t i t' T E; cbn [emit_from] in E.
  - injection E as <-. cbn. rewrite app_nil_r. auto.
  - destruct (emit_inst p t i d) as [t1|] eqn:E1; [|discriminate]. destruct (emit_ok _ _ _ _ _ T E1) as [T1 V1]. destruct (IH _ _ _ T1 E) as [T2 V2].
    split; [exact T2|]. rewrite V2, V1, map_app, <- app_assoc. f_equal. cbn [length seq filter nth_error].
    assert (SH : map (fun k => (S i + k)%nat) (filter (fun k => match nth_error l k with Some d => emits_suspend d | None => false end) (seq 0 (length l))) =
                 map (fun k => (i + k)%nat) (filter (fun k => match nth_error (d :: l) k with Some d => emits_suspend d | None => false end) (seq 1 (length l)))).
    { rewrite <- seq_shift. generalize (seq 0 (length l)). induction l0 as [|x l0 IHl]; [reflexivity|]. cbn [map filter nth_error]. destruct (match nth_error l x with Some d0 => emits_suspend d0 | None => false end); cbn [map]; rewrite IHl; [f_equal; lia|reflexivity]. }
    destruct (emits_suspend d); cbn [map app fst]; rewrite SH; [f_equal; lia|reflexivity].
Qed.
Lemma build_table_ok p t : build_table p = Some t -> table_ok p t /\
  map fst (rt_values t) = filter (fun k => match nth_error (b_insts p) k with Some d => emits_suspend d | None => false end) (seq 0 (length (b_insts p))).
Proof.
  intros E. assert (T0 : table_ok p (mkRt [] [])) by (split; [reflexivity|intros [|k] ? ?; discriminate]).
  destruct (emit_from_ok p _ _ _ _ T0 E) as [A B]. split; [exact A|]. rewrite B. cbn. apply map_id.
Qed.
Lemma build_table_total p : (forall i d, nth_error (b_insts p) i = Some d -> emits_suspend d = true -> (S i < length (b_insts p))%nat) -> build_table p <> None.
Proof.
  intros H. unfold build_table. assert (G : forall l i t, skipn i (b_insts p) = l -> emit_from p t i l <> None).
  { induction l as [|d l IH]; intros i t SK; [discriminate|]. cbn [emit_from].
    assert (Hd : nth_error (b_insts p) i = Some d).
    { clear - SK. revert SK. generalize (b_insts p). induction i as [|i IHi]; intros [|x l0]; cbn; try discriminate; [congruence|apply IHi]. }
    assert (SK' : skipn (S i) (b_insts p) = l).
    { clear - SK. revert SK. generalize (b_insts p). induction i as [|i IHi]; intros [|x l0]; cbn; try discriminate; [congruence|apply IHi]. }
    unfold emit_inst. destruct (emits_suspend d) eqn:E; [|apply IH, SK'].
    unfold effective_next_entry.
    specialize (H i d Hd E). destruct (Nat.ltb_spec (S i) (length (b_insts p))); [apply IH, SK'|lia]. }
  apply G. reflexivity.
Qed.
Lemma filter_le {A} (f : A -> bool) l : (length (filter f l) <= length l)%nat.
Proof. induction l as [|x l IH]; cbn; [lia|]. destruct (f x); cbn; lia. Qed.

(** ** Stacks. *)
Lemma live_length s : length (live s) = s_len s.
Proof. unfold live. rewrite map_length, seq_length. reflexivity. Qed.
Lemma live_store s l : live (store s l) = l.
Proof.
  unfold live, store. cbn.
  transitivity (map (fun k => nth k l 0) (seq 0 (length l))).
  - apply map_ext_in. intros k Hk. apply in_seq in Hk. apply nth_indep. lia.
  - induction l as [|x l IH]; [reflexivity|]. cbn [length seq map nth]. f_equal. rewrite <- seq_shift, map_map. exact IH.
Qed.
Lemma live_copy b src dst n : live (mkStk (copy b src dst n) n) = live (mkStk src n).
Proof.
  unfold live, copy. cbn [s_buf s_len]. destruct b; [|reflexivity]. apply map_ext_in. intros k Hk. apply in_seq in Hk. destruct (Nat.ltb_spec k n); [reflexivity|lia].
Qed.

(** ** Runs. *)
Definition effect_of {W R} (b : bres W R) : effect W R :=
  match b with BNext j st w => Continue j st w | BSuspend st w => CallOut st w | BDone r w => Finish r w end.
Definition after (p : bc) (i j : nat) : Prop := effective_next_entry p i = Some (JGoto j).

Lemma executes_ext {W R} (eff : nat -> list Z -> W -> effect W R) (a1 a2 : nat -> nat -> Prop) host :
  (forall i st w st' w' j, eff i st w = CallOut st' w' -> a1 i j -> a2 i j) ->
  forall i st w r w', executes eff a1 host i st w r w' -> executes eff a2 host i st w r w'.
Proof.
  intros H i st w r w'. induction 1 as [i st w r w' E|i st w j st' w1 r w' E H0 IH|i st w st1 w1 v w2 j r w' E HH AF H0 IH].
  - apply ex_finish, E.
  - eapply ex_next; eauto.
  - eapply ex_call; eauto.
Qed.

Section Drive.
  Context {W R : Type} (p : bc) (t : rtab) (local inspect : bool) (body : nat -> list Z -> W -> bres W R)
          (junk : nat -> nat -> Z) (host : W -> Z * W).
  Hypothesis BT : build_table p = Some t.
  (** Only instructions with code for it suspend. *)
  Hypothesis SUSP : forall i st w st' w', body i st w = BSuspend st' w' -> exists d, nth_error (b_insts p) i = Some d /\ emits_suspend d = true.
  Notation runs := (runs t local body).
  Notation calls := (calls p t local inspect body).
  Notation drives := (drives p t local inspect body junk host).
  Notation executes := (executes (fun i st w => effect_of (body i st w)) (after p) host).

  Lemma suspends_flag i st w st' w' : body i st w = BSuspend st' w' -> calc_may_suspend p = true.
  Proof.
    intros H. destruct (SUSP _ _ _ _ _ H) as (d & Hd & E). apply existsb_exists. exists d. split; [eapply nth_error_In; eauto|].
    unfold emits_suspend in E. destruct (is_dead d), (may_suspend d); cbn in *; congruence.
  Qed.
  Lemma value_of i : (exists d, nth_error (b_insts p) i = Some d /\ emits_suspend d = true) -> exists v, In (i, v) (rt_values t).
  Proof.
    intros (d & Hd & E). destruct (build_table_ok _ _ BT) as [_ F].
    assert (In i (map fst (rt_values t))) as I.
    { rewrite F. apply filter_In. split; [apply in_seq; apply nth_lt in Hd; lia|]. rewrite Hd. exact E. }
    apply in_map_iff in I as ([i0 v] & <- & I). eauto.
  Qed.
  Lemma value_target i v : In (i, v) (rt_values t) -> v <> 0%nat /\ exists b, nth_error (rt_blocks t) (v - 1) = Some b /\ effective_next_entry p i = Some b.
  Proof.
    intros I. destruct (build_table_ok _ _ BT) as [[A B] _]. apply In_nth_error in I as [k Hk]. split; [|eapply B; eauto].
    apply (map_nth_error snd) in Hk. rewrite A in Hk. apply nth_error_In in Hk. apply in_seq in Hk. cbn in Hk. lia.
  Qed.

  (** What a call ends with determines the rest of the uninterrupted execution, and conversely. *)
  Lemma runs_sound i s arg w o : runs i s arg w o -> forall r w', 
    match o with
    | FDone r1 w1 => r1 = r /\ w1 = w'
    | FSuspended v s' w1 => exists i0 x w2 j, In (i0, v) (rt_values t) /\ calc_may_suspend p = true /\ host w1 = (x, w2) /\ after p i0 j /\ executes j (live s' ++ [x]) w2 r w'
    | FPanic => False
    end -> executes i (live s) w r w'.
  Proof.
    induction 1 as [i s arg w r w' E|i s arg w j st w' o E H IH|i s arg w st w' v E I]; intros r0 w0 HO.
    - destruct HO as [<- <-]. apply ex_finish. rewrite E. reflexivity.
    - eapply ex_next; [rewrite E; reflexivity|]. rewrite <- (live_store s st). apply IH. exact HO.
    - destruct HO as (i0 & x & w2 & j & I0 & MS & HH & AF & EX). destruct (value_target i v I) as (_ & b & Hb & En). destruct (value_target i0 v I0) as (_ & b0 & Hb0 & En0).
      assert (L1 : live (mkStk (copy local (s_buf (store s st)) arg (length st)) (length st)) = st) by (rewrite live_copy; apply (live_store s st)).
      rewrite L1 in EX. eapply ex_call; [rewrite E; reflexivity|exact HH| |exact EX]. unfold after in *. congruence.
  Qed.
  Lemma runs_complete i st w r w' : executes i st w r w' -> forall s arg, live s = st ->
    exists o, runs i s arg w o /\
      match o with
      | FDone r1 w1 => r1 = r /\ w1 = w'
      | FSuspended v s' w1 => exists i0 x w2 j, In (i0, v) (rt_values t) /\ calc_may_suspend p = true /\ host w1 = (x, w2) /\ after p i0 j /\
          forall k, exists o, drives (S k) v (store s' (live s' ++ [x])) w2 o /\ o = Some (r, w')
      | FPanic => False
      end.
  Proof.
    induction 1 as [i st w r w' E|i st w j st' w1 r w' E H IH|i st w st1 w1 v w2 j r w' E HH AF H IH]; intros s arg LS.
    - exists (FDone r w'). split; [|auto]. apply runs_done. rewrite LS. destruct (body i st w); cbn in E; congruence.
    - destruct (IH (store s st') arg (live_store _ _)) as (o & HR & HO). exists o. split; [|exact HO]. eapply runs_next; [|exact HR].
      rewrite LS. destruct (body i st w); cbn in E; try discriminate. congruence.
    - assert (EB : body i (live s) w = BSuspend st1 w1) by (rewrite LS; destruct (body i st w); cbn in E; try discriminate; congruence).
      pose proof (suspends_flag _ _ _ _ _ EB) as MS. destruct (value_of i (SUSP _ _ _ _ _ EB)) as [x Ix]. destruct (value_target i x Ix) as (Nx & b & Hb & En).
      eexists. split; [eapply runs_suspend; eassumption|]. exists i, v, w2, j. split; [exact Ix|]. split; [exact MS|]. split; [exact HH|]. split; [exact AF|].
      intros k. cbn [s_buf s_len].
      set (s1 := mkStk (copy local (s_buf (store s st1)) arg (length st1)) (length st1)).
      assert (L1 : live s1 = st1). { unfold s1. rewrite live_copy. apply (live_store s st1). }
      set (s2 := store s1 (live s1 ++ [v])).
      assert (L2 : live s2 = st1 ++ [v]) by (unfold s2; rewrite live_store, L1; reflexivity).
      assert (L3 : live (mkStk (copy local (s_buf s2) (junk (S k)) (s_len s2)) (s_len s2)) = st1 ++ [v]) by (rewrite live_copy; destruct s2; exact L2).
      destruct (IH _ (s_buf s2) L3) as (o & HR & HO).
      assert (HC : calls (junk (S k)) x s2 w2 o).
      { eapply calls_resume; [exact MS|exact Nx| |exact HR]. unfold after in AF. rewrite Hb. congruence. }
      destruct o as [r1 w1'|v' s' w1'|].
      + destruct HO as [-> ->]. exists (Some (r, w')). split; [apply drives_done; exact HC|reflexivity].
      + destruct HO as (i0 & y & w3 & j0 & _ & _ & HH' & _ & D). destruct (D (S k)) as (o & HD & ->). exists (Some (r, w')). split; [|reflexivity].
        eapply drives_again; [exact HC|exact HH'|exact HD].
      + destruct HO.
  Qed.

  Lemma runs_suspended i s arg w o : runs i s arg w o -> forall v s' w1, o = FSuspended v s' w1 -> exists i0, In (i0, v) (rt_values t) /\ calc_may_suspend p = true.
  Proof.
    induction 1 as [i s arg w r w' E|i s arg w j st w' o E H IH|i s arg w st w' v E I]; intros v0 s0 w0 HO; [discriminate|eapply IH; eauto|].
    injection HO as <- _ _. exists i. split; [exact I|]. eapply suspends_flag; eauto.
  Qed.

  Lemma runs_no_panic i s arg w o : runs i s arg w o -> o <> FPanic.
  Proof. induction 1; congruence. Qed.

  (** Where a call enters. *)
  Definition enters (pc : nat) (s : stk) (i : nat) (st : list Z) : Prop :=
    if calc_may_suspend p && negb (pc =? 0)%nat then (exists i0, In (i0, pc) (rt_values t) /\ after p i0 i) /\ st = live s
    else i = 0%nat /\ st = if inspect then live s else [].
  Lemma drives_sound k pc s w o : drives k pc s w o -> forall i st, enters pc s i st -> match o with Some (r, w') => executes i st w r w' | None => False end.
  Proof.
    assert (CL : forall junk pc s w o, calls junk pc s w o -> forall i st, enters pc s i st ->
      o <> FPanic /\ exists s1 arg, live s1 = st /\ runs i s1 arg w o).
    { intros jk pc0 s0 w0 o0 H i st EN. unfold enters in EN. inversion H as [o1 C HR|j o1 MS N Hn HR|MS N Hn]; subst.
      - assert (E : calc_may_suspend p && negb (pc0 =? 0)%nat = false) by (destruct C as [-> | ->]; [reflexivity|rewrite andb_false_r; reflexivity]).
        rewrite E in EN. destruct EN as [-> ->]. split; [eapply runs_no_panic; exact HR|]. eexists _, _. split; [|exact HR]. destruct inspect; [|reflexivity]. rewrite live_copy. destruct s0; reflexivity.
      - rewrite MS in EN. destruct (Nat.eqb_spec pc0 0); [contradiction|]. cbn in EN. destruct EN as [(i0 & I0 & AF) ->].
        destruct (value_target i0 pc0 I0) as (_ & b & Hb & En). unfold after in AF. assert (j = i) by congruence. subst j.
        split; [eapply runs_no_panic; exact HR|]. eexists _, _. split; [|exact HR]. rewrite live_copy. destruct s0; reflexivity.
      - exfalso. rewrite MS in EN. destruct (Nat.eqb_spec pc0 0); [contradiction|]. cbn in EN. destruct EN as [(i0 & I0 & AF) ->].
        destruct (value_target i0 pc0 I0) as (_ & b & Hb & En). congruence. }
    induction 1 as [k pc s w r w' HC|k pc s w HC|k pc s w pc' s' w1 v w2 o HC HH HD IH]; intros i st EN.
    - destruct (CL _ _ _ _ _ HC i st EN) as (_ & s1 & arg & <- & HR). eapply runs_sound; [exact HR|]. cbn. auto.
    - destruct (CL _ _ _ _ _ HC i st EN) as (N & _). congruence.
    - destruct (CL _ _ _ _ _ HC i st EN) as (_ & s1 & arg & <- & HR). destruct (runs_suspended _ _ _ _ _ HR _ _ _ eq_refl) as (i0 & I0 & MS).
      destruct (value_target i0 pc' I0) as (N & b & Hb & En).
      assert (AF : exists j, after p i0 j).
      { assert (exists jk oo, calls jk pc' (store s' (live s' ++ [v])) w2 oo) as (jk & oo & C) by (inversion HD; subst; eauto).
        inversion C as [o1 [C1|C1] HR1|j o1 _ _ Hn _|_ _ Hn]; subst; [congruence|congruence| |congruence]. exists j. unfold after. congruence. }
      destruct AF as [j AF]. assert (EN' : enters pc' (store s' (live s' ++ [v])) j (live s' ++ [v])).
      { unfold enters. rewrite MS. destruct (Nat.eqb_spec pc' 0); [contradiction|]. cbn. split; [eauto|]. symmetry. apply live_store. }
      specialize (IH j _ EN'). destruct o as [[r w']|]; [|exact IH]. eapply runs_sound; [exact HR|]. cbn. exists i0, v, w2, j. auto 6.
  Qed.
  Lemma drives_complete k pc s w i st r w' : enters pc s i st -> executes i st w r w' -> drives k pc s w (Some (r, w')).
  Proof.
    intros EN EX. unfold enters in EN.
    assert (FIN : forall o, calls (junk k) pc s w o ->
      match o with
      | FDone r1 w1 => r1 = r /\ w1 = w'
      | FSuspended v s' w1 => exists i0 x w2 j, In (i0, v) (rt_values t) /\ calc_may_suspend p = true /\ host w1 = (x, w2) /\ after p i0 j /\
          forall k, exists o, drives (S k) v (store s' (live s' ++ [x])) w2 o /\ o = Some (r, w')
      | FPanic => False
      end -> drives k pc s w (Some (r, w'))).
    { intros [r1 w1|v s' w1|] HC HO; [|  |destruct HO].
      - destruct HO as [-> ->]. apply drives_done, HC.
      - destruct HO as (i0 & x & w2 & j & _ & _ & HH & _ & D). destruct (D k) as (o & HD & ->). eapply drives_again; eassumption. }
    destruct (calc_may_suspend p && negb (pc =? 0)%nat) eqn:E.
    - destruct EN as [(i0 & I0 & AF) ->]. apply andb_prop in E as [MS N]. destruct (Nat.eqb_spec pc 0); [discriminate|]. destruct (value_target i0 pc I0) as (_ & b & Hb & En).
      assert (L3 : live (mkStk (copy local (s_buf s) (junk k) (s_len s)) (s_len s)) = live s) by (rewrite live_copy; destruct s; reflexivity).
      destruct (runs_complete _ _ _ _ _ EX _ (s_buf s) L3) as (o & HR & HO). apply (FIN o); [|exact HO]. eapply calls_resume; [exact MS|assumption| |exact HR]. unfold after in AF. congruence.
    - destruct EN as [-> ->].
      assert (C : calc_may_suspend p = false \/ pc = 0%nat) by (destruct (calc_may_suspend p); [right; destruct (Nat.eqb_spec pc 0); [assumption|discriminate]|left; reflexivity]).
      pose (n := if inspect then s_len s else 0%nat).
      assert (L3 : live (mkStk (copy local (s_buf s) (junk k) n) n) = if inspect then live s else []) by (unfold n; destruct inspect; [rewrite live_copy; destruct s; reflexivity|reflexivity]).
      destruct (runs_complete _ _ _ _ _ EX _ (s_buf s) L3) as (o & HR & HO). apply (FIN o); [|exact HO]. apply calls_start; [exact C|exact HR].
  Qed.
End Drive.
