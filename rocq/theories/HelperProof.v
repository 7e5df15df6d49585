(** Proofs about the compilation helper. *)
From Verif Require Import HelperSpec.

Section Proof.
  Context {R : Type}.
  Variable compiled : nat -> R.
  Variable timeout cap : nat.
  Notation state := (state R).
  Notation step := (step compiled timeout cap).
  Notation run := (run compiled timeout cap).
  Notation proc := (proc (R:=R)).
  Implicit Types (s : state) (p : proc).

  Lemma run_app l1 : forall s l2, run s (l1 ++ l2) = match run s l1 with Some s1 => run s1 l2 | None => None end.
  Proof. induction l1 as [|a l1 IH]; intros s l2; cbn; [reflexivity|]. destruct (step s a); auto. Qed.
  Lemma run_inv (I : state -> Prop) : (forall s a s', I s -> step s a = Some s' -> I s') -> forall l s s', I s -> run s l = Some s' -> I s'.
  Proof. intros H. induction l as [|a l IH]; intros s s' Hs Hr; cbn in Hr; [congruence|]. destruct (step s a) eqn:E; [|discriminate]. eauto. Qed.

  Lemma nth_skipn {A} (l : list A) : forall n k, nth_error (skipn n l) k = nth_error l (n + k).
  Proof. induction l as [|x l IH]; intros [|n] k; cbn; try reflexivity; [destruct k; reflexivity|apply IH]. Qed.
  Lemma nth_error_firstn {A} n : forall k (l : list A), k < n -> nth_error (firstn n l) k = nth_error l k.
  Proof. induction n as [|n IH]; intros [|k] [|x l] H; cbn; try lia; try reflexivity. apply IH. lia. Qed.
  Lemma nth_set_eq {A} (l : list A) i v : i < length l -> nth_error (set_nth l i v) i = Some v.
  Proof.
    intros H. unfold set_nth. rewrite nth_error_app2; rewrite firstn_length_le by lia; [|lia]. rewrite Nat.sub_diag. reflexivity.
  Qed.
  Lemma nth_set_neq {A} (l : list A) i j v : i < length l -> i <> j -> nth_error (set_nth l i v) j = nth_error l j.
  Proof.
    intros H N. unfold set_nth. destruct (lt_dec j i) as [L|L].
    - rewrite nth_error_app1 by (rewrite firstn_length_le; lia). apply nth_error_firstn. exact L.
    - rewrite nth_error_app2; rewrite firstn_length_le by lia; [|lia]. destruct (j - i) as [|k] eqn:E; [lia|].
      change (nth_error (skipn (S i) l) k = nth_error l j). rewrite nth_skipn. f_equal. lia.
  Qed.
  Lemma set_nth_length {A} (l : list A) i v : i < length l -> length (set_nth l i v) = length l.
  Proof. intros H. unfold set_nth. rewrite app_length, firstn_length_le by lia. cbn [length]. rewrite skipn_length. lia. Qed.
  Lemma nth_set {A} (l : list A) i j v : i < length l -> nth_error (set_nth l i v) j = if j =? i then Some v else nth_error l j.
  Proof. intros H. destruct (Nat.eqb_spec j i) as [->|N]; [apply nth_set_eq; exact H|apply nth_set_neq; auto]. Qed.
  Lemma nth_lt {A} (l : list A) i v : nth_error l i = Some v -> i < length l.
  Proof. intros H. apply nth_error_Some. congruence. Qed.

  (** ** Callers, queue and flag. *)
  Fixpoint last_cmd (l : list cmd) (b : bool) : bool :=
    match l with [] => b | CStop :: l' => last_cmd l' true | CCont :: l' => last_cmd l' false | COther :: l' => last_cmd l' b end.
  Lemma last_cmd_app l c b : last_cmd (l ++ [c]) b = match c with CStop => true | CCont => false | COther => last_cmd l b end.
  Proof. revert b. induction l as [|x l IH]; intros b; cbn; [destruct c; reflexivity|]. destruct x; rewrite IH; destruct c; reflexivity. Qed.
  Definition lastc s := last_cmd (s_queue s) (s_flag s).

  (** What an action does to the callers' side; everything else leaves it alone. *)
  Inductive front s s' : act -> Prop :=
  | F_same a : s_depth s' = s_depth s -> s_held s' = s_held s -> s_pp s' = s_pp s -> s_pr s' = s_pr s -> s_dropped s' = s_dropped s -> lastc s' = lastc s -> a <> APauseAdd -> front s s' a
  | F_add : s_depth s' = S (s_depth s) -> s_held s' = s_held s -> s_pp s' = s_pp s ++ [s_depth s =? 0] -> s_pr s' = s_pr s -> s_dropped s' = s_dropped s -> lastc s' = lastc s -> front s s' APauseAdd
  | F_send i b : nth_error (s_pp s) i = Some b -> s_depth s' = s_depth s -> s_held s' = S (s_held s) -> s_pp s' = remove_nth (s_pp s) i -> s_pr s' = s_pr s ->
      (s_dropped s' = s_dropped s /\ lastc s' = (if b then true else lastc s) \/ s_dropped s' > 0) -> s_dropped s <= s_dropped s' -> front s s' (APauseSend i)
  | F_sub : s_held s > 0 -> s_depth s' = s_depth s - 1 -> s_held s' = s_held s - 1 -> s_pp s' = s_pp s -> s_pr s' = (if s_depth s =? 1 then S (s_pr s) else s_pr s) ->
      s_dropped s' = s_dropped s -> lastc s' = lastc s -> front s s' AResumeSub
  | F_cont : s_pr s > 0 -> s_depth s' = s_depth s -> s_held s' = s_held s -> s_pp s' = s_pp s -> s_pr s' = s_pr s - 1 ->
      (s_dropped s' = s_dropped s /\ lastc s' = false \/ s_dropped s' > 0) -> s_dropped s <= s_dropped s' -> front s s' AResumeSend.
  Ltac same := repeat match goal with |- context [match ?x with _ => _ end] => destruct x end; apply F_same; try reflexivity; discriminate.
  Ltac crack H := repeat (match type of H with
    | Some _ = Some _ => injection H as <-
    | None = Some _ => discriminate H
    | context [match ?x with _ => _ end] => destruct x eqn:?
    end).
  Lemma step_front s a s' : step s a = Some s' -> front s s' a.
  Proof.
    intros H. destruct a; cbn [HelperModel.step] in H.
    2: { injection H as <-. apply F_add; reflexivity. }
    2: { destruct (nth_error (s_pp s) i) as [b|] eqn:E; [|discriminate]. injection H as <-. destruct b; [|eapply F_send; [exact E|reflexivity..| |]; [left; split; reflexivity|apply le_n]].
         unfold send_control. destruct (negb _); [eapply F_send; [exact E|reflexivity..| |]; cbn; [right; lia|lia]|].
         destruct (_ <? _).
         - eapply F_send; [exact E|reflexivity..| |apply le_n]. left. split; [reflexivity|]. unfold lastc. cbn. apply last_cmd_app.
         - eapply F_send; [exact E|reflexivity..| |]; cbn; lia. }
    2: { destruct (Nat.eqb_spec (s_held s) 0); [discriminate|]. injection H as <-. apply F_sub; try reflexivity. lia. }
    2: { destruct (Nat.eqb_spec (s_pr s) 0); [discriminate|]. injection H as <-. unfold send_control. cbn [s_started set_calls s_queue].
         destruct (negb _); [apply F_cont; try reflexivity; cbn; [lia|right; lia|lia]|].
         destruct (_ <? _).
         - apply F_cont; try reflexivity; [lia|]. left. split; [reflexivity|]. unfold lastc. cbn. apply last_cmd_app.
         - apply F_cont; try reflexivity; cbn; lia. }
    all: try (unfold at_proc in H; crack H; same).
    - crack H. apply F_same; try reflexivity; try discriminate. unfold lastc. cbn. apply last_cmd_app.
    - destruct (s_bk s) eqn:?; try discriminate. destruct (s_queue s) as [|[| |] q] eqn:Q; try discriminate; injection H as <-; (apply F_same; try reflexivity; try discriminate); unfold lastc; cbn; rewrite Q; reflexivity.
  Qed.
  Definition inv_calls s : Prop := s_depth s = s_held s + length (s_pp s) /\ (s_dropped s = 0 -> lastc s = true -> s_depth s >= 1 \/ s_pr s >= 1).
  Lemma remove_nth_length {A} (l : list A) i v : nth_error l i = Some v -> length l = S (length (remove_nth l i)).
  Proof. intros H. apply nth_lt in H. unfold remove_nth. rewrite app_length, firstn_length_le, skipn_length by lia. lia. Qed.
  Lemma calls_step s a s' : inv_calls s -> step s a = Some s' -> inv_calls s'.
  Proof.
    intros [I1 I2] H. apply step_front in H. unfold inv_calls. inversion H as [? ED EH EP ER EX EL _|ED EH EP ER EX EL|i b HN ED EH EP ER EL EX|HN ED EH EP ER EX EL|HN ED EH EP ER EL EX].
    - rewrite ED, EH, EP, ER, EX, EL. auto.
    - rewrite ED, EH, EP, ER, EX, EL, app_length. cbn. split; [lia|]. left. lia.
    - pose proof (remove_nth_length _ _ _ HN). rewrite ED, EH, EP, ER. split; [lia|]. intros D L. left. lia.
    - rewrite ED, EH, EP, ER, EX, EL. split; [lia|]. intros D L. destruct (Nat.eqb_spec (s_depth s) 1); [right; lia|]. left. lia.
    - rewrite ED, EH, EP, ER. split; [lia|]. intros D L. destruct EL as [[_ EL]|EL]; [congruence|lia].
  Qed.
  Lemma calls_inv l s : history compiled timeout cap l s -> inv_calls s.
  Proof. apply run_inv; [exact calls_step|]. split; [reflexivity|]. cbn. discriminate. Qed.
  (** With no pause starting while a resume is on its way. *)
  Definition inv_serial s : Prop := s_depth s = s_held s + length (s_pp s) /\ (s_dropped s = 0 -> (s_pr s >= 1 -> s_depth s = 0) /\ (s_pr s = 0 -> s_depth s >= 1 -> ~ In true (s_pp s) -> lastc s = true)).
  Lemma in_remove {A} (l : list A) i x : In x (remove_nth l i) -> In x l.
  Proof. unfold remove_nth. intros H. rewrite <- (firstn_skipn i l). apply in_app_or in H as [H|H]; apply in_or_app; [left; exact H|right]. destruct (skipn i l) as [|y l'] eqn:E.
    - assert (skipn (S i) l = []) as X. { replace (S i) with (1 + i) by lia. clear -E. revert l E. induction i as [|i IH]; intros l E; cbn in *; [subst l; reflexivity|destruct l as [|z l]; [reflexivity|apply IH; exact E]]. }
      rewrite X in H. destruct H.
    - assert (skipn (S i) l = l') as X. { clear -E. revert l E. induction i as [|i IH]; intros l E; cbn in *; [destruct l; congruence|destruct l as [|z l]; [discriminate|apply IH; exact E]]. }
      rewrite X in H. right. exact H. Qed.
  Lemma in_remove_or {A} (l : list A) i x y : nth_error l i = Some y -> In x l -> x = y \/ In x (remove_nth l i).
  Proof.
    unfold remove_nth. revert i. induction l as [|z l IH]; intros [|i] H Hin; cbn in *; try discriminate.
    - injection H as ->. destruct Hin as [<-|Hin]; auto.
    - destruct Hin as [<-|Hin]; [right; left; reflexivity|]. destruct (IH _ H Hin) as [E|E]; auto.
  Qed.
  Lemma serial_step s a s' : inv_serial s -> step s a = Some s' -> (a = APauseAdd -> s_pr s = 0) -> inv_serial s'.
  Proof.
    intros [I1 I2] H G. apply step_front in H. unfold inv_serial. inversion H as [? ED EH EP ER EX EL _ |ED EH EP ER EX EL|i b HN ED EH EP ER EL EX|HN ED EH EP ER EX EL|HN ED EH EP ER EL EX].
    - rewrite ED, EH, EP, ER, EX, EL. auto.
    - specialize (G (eq_sym H0)). rewrite ED, EH, EP, ER, EX, EL, app_length. cbn. split; [lia|]. intros D. split; [lia|]. intros _ _ NT.
      destruct (Nat.eqb_spec (s_depth s) 0) as [Z|Z]; [exfalso; apply NT; apply in_or_app; right; left; reflexivity|].
      apply I2; auto; [lia|]. intros X. apply NT. apply in_or_app. auto.
    - pose proof (remove_nth_length _ _ _ HN). rewrite ED, EH, EP, ER. split; [lia|]. intros D. assert (D0 : s_dropped s = 0) by lia. destruct (I2 D0) as [J1 J2]. split; [exact J1|].
      intros P D1 NT. destruct EL as [[_ EL]|EL]; [|lia]. rewrite EL. destruct b; [reflexivity|]. apply J2; auto. intros X. destruct (in_remove_or _ _ _ _ HN X); [discriminate|contradiction].
    - rewrite ED, EH, EP, ER, EX, EL. split; [lia|]. intros D. destruct (I2 D) as [J1 J2]. destruct (Nat.eqb_spec (s_depth s) 1) as [Z|Z].
      + split; [lia|]. intros; lia.
      + split; [intros X; specialize (J1 X); lia|]. intros P D1 NT. apply J2; auto. lia.
    - rewrite ED, EH, EP, ER. split; [lia|]. intros D. assert (D0 : s_dropped s = 0) by lia. destruct (I2 D0) as [J1 J2]. specialize (J1 HN). split; [lia|]. lia.
  Qed.
  Lemma serial_inv l : forall s s', inv_serial s -> no_overlap compiled timeout cap s l -> run s l = Some s' -> inv_serial s'.
  Proof.
    induction l as [|a l IH]; intros s s' I N H; cbn in N, H; [congruence|]. destruct N as [N1 N2]. destruct (step s a) as [s1|] eqn:E; [|discriminate].
    eapply IH; [|exact N2|exact H]. eapply serial_step; eauto.
  Qed.

  (** ** The helper follows the flag. *)
  Definition follows (b : bool) (p : proc) : Prop := p_alive p = true -> p_stopped p = b /\ last_order (p_in p) (p_ip p) = b.
  Lemma last_order_app l m b : last_order (l ++ [m]) b = match m with MPause _ => true | MResume => false | _ => last_order l b end.
  Proof. revert b. induction l as [|x l IH]; intros b; cbn; [destruct m; reflexivity|]. destruct x; rewrite IH; destruct m; reflexivity. Qed.
  Record inv_flag s : Prop := {
    if_slot : forall g p, s_slot s = Some g -> nth_error (s_procs s) g = Some p -> s_bk s = BIdle -> follows (s_flag s) p;
    if_valid : forall g, s_slot s = Some g -> g < length (s_procs s);
    if_stored : forall v, s_bk s = BStored v -> s_flag s = v;
    if_lock : match s_lock s with
              | LMade _ g => exists p, nth_error (s_procs s) g = Some p /\ follows false p /\ s_slot s <> Some g
              | LStopping _ g _ => (exists p, nth_error (s_procs s) g = Some p /\ (p_alive p = true -> last_order (p_in p) (p_ip p) = true)) /\ s_slot s <> Some g /\ (s_bk s = BIdle -> s_flag s = true)
              | LReady _ g => exists p, nth_error (s_procs s) g = Some p /\ (s_bk s = BIdle -> follows (s_flag s) p)
              | LBack g _ => s_bk s = BPausing /\ s_slot s = Some g /\ s_flag s = true /\ exists p, nth_error (s_procs s) g = Some p /\ (p_alive p = true -> last_order (p_in p) (p_ip p) = true)
              | _ => True
              end;
    if_bk : s_bk s = BPausing -> exists g id, s_lock s = LBack g id
  }.
  Definition calm (p p' : proc) : Prop := p_alive p' = true -> p_alive p = true /\ p_stopped p' = p_stopped p /\ last_order (p_in p') (p_ip p') = last_order (p_in p) (p_ip p).
  Lemma calm_refl p : calm p p. Proof. intros H. auto. Qed.
  Lemma calm_follows b p p' : calm p p' -> follows b p -> follows b p'.
  Proof. intros C F A. destruct (C A) as (A0 & -> & ->). apply F. exact A0. Qed.
  Lemma inv_flag_calm s s' : inv_flag s -> s_flag s' = s_flag s -> s_bk s' = s_bk s -> s_lock s' = s_lock s -> s_slot s' = s_slot s -> length (s_procs s') = length (s_procs s) ->
    (forall g p, nth_error (s_procs s) g = Some p -> exists p', nth_error (s_procs s') g = Some p' /\ calm p p') -> inv_flag s'.
  Proof.
    intros [I1 I2 I3 I4 I5] EF EB EL ES EN C.
    assert (C' : forall g p', nth_error (s_procs s') g = Some p' -> exists p, nth_error (s_procs s) g = Some p /\ calm p p').
    { intros g p' H. destruct (nth_error (s_procs s) g) as [p|] eqn:E; [|apply nth_error_None in E; apply nth_lt in H; lia]. destruct (C _ _ E) as (q & Q1 & Q2). exists p. split; [reflexivity|]. rewrite H in Q1. injection Q1 as ->. exact Q2. }
    constructor; rewrite ?EF, ?EB, ?EL, ?ES, ?EN; auto.
    - intros g p' Hs Hp Hb. destruct (C' _ _ Hp) as (p & P1 & P2). eapply calm_follows; eauto.
    - destruct (s_lock s) as [|j|j g|j g id|j g|g id]; auto.
      + destruct I4 as (p & P1 & P2 & P3). destruct (C _ _ P1) as (p' & Q1 & Q2). exists p'. eauto using calm_follows.
      + destruct I4 as ((p & P1 & P2) & P3). destruct (C _ _ P1) as (p' & Q1 & Q2). split; [|exact P3]. exists p'. split; [exact Q1|]. intros A. destruct (Q2 A) as (A0 & _ & ->). auto.
      + destruct I4 as (p & P1 & P2). destruct (C _ _ P1) as (p' & Q1 & Q2). exists p'. split; [exact Q1|]. intros B. eapply calm_follows; eauto.
      + destruct I4 as (J1 & J2 & J3 & p & P1 & P2). destruct (C _ _ P1) as (p' & Q1 & Q2). repeat (split; [assumption|]). exists p'. split; [exact Q1|]. intros A. destruct (Q2 A) as (A0 & _ & ->). auto.
  Qed.
  Lemma calm_id s s' : inv_flag s -> s_flag s' = s_flag s -> s_bk s' = s_bk s -> s_lock s' = s_lock s -> s_slot s' = s_slot s -> s_procs s' = s_procs s -> inv_flag s'.
  Proof. intros I EF EB EL ES EP. eapply inv_flag_calm; eauto; [congruence|]. intros g p H. exists p. rewrite EP. split; [exact H|apply calm_refl]. Qed.
  Lemma calm_one s s' g p p' : inv_flag s -> s_flag s' = s_flag s -> s_bk s' = s_bk s -> s_lock s' = s_lock s -> s_slot s' = s_slot s ->
    nth_error (s_procs s) g = Some p -> s_procs s' = set_nth (s_procs s) g p' -> calm p p' -> inv_flag s'.
  Proof.
    intros I EF EB EL ES HP EP C. pose proof (nth_lt _ _ _ HP) as L. eapply inv_flag_calm; eauto; [rewrite EP; apply set_nth_length; exact L|].
    intros k q Hq. rewrite EP, nth_set by exact L. destruct (Nat.eqb_spec k g) as [->|N]; [exists p'; split; [reflexivity|]; rewrite HP in Hq; injection Hq as <-; exact C|exists q; split; [exact Hq|apply calm_refl]].
  Qed.
  Lemma flag_step s a s' : inv_flag s -> step s a = Some s' -> inv_flag s'.
  Proof.
    intros I H. destruct a; cbn [HelperModel.step] in H.
    - injection H as <-. eapply calm_id; eauto.
    - injection H as <-. eapply calm_id; eauto.
    - destruct (nth_error _ _) as [[|]|]; [| |discriminate]; injection H as <-; [|eapply calm_id; eauto]. unfold send_control. destruct (negb _); [|destruct (_ <? _)]; eapply calm_id; eauto.
    - destruct (_ =? _); [discriminate|]. injection H as <-. eapply calm_id; eauto.
    - destruct (_ =? _); [discriminate|]. injection H as <-. unfold send_control. destruct (negb _); [|destruct (_ <? _)]; eapply calm_id; eauto.
    - injection H as <-. eapply calm_id; eauto.
    - destruct (_ && _); [|discriminate]. injection H as <-. eapply calm_id; eauto.
    - (* handle *)
      assert (G : forall q v, s_bk s = BIdle -> inv_flag (set_bk (set_queue s q (s_dropped s)) v (BStored v))).
      { intros q v B. destruct I as [I1 I2 I3 I4 I5]. constructor; cbn; auto; try discriminate; try congruence.
        destruct (s_lock s) as [|j|j g|j g id|j g|g id]; auto.
        - destruct I4 as (P & Q & _). split; [exact P|]. split; [exact Q|discriminate].
        - destruct I4 as (p & P & _). exists p. split; [exact P|discriminate].
        - destruct I4 as (X & _). congruence. }
      destruct (s_bk s) eqn:B; try discriminate. destruct (s_queue s) as [|[| |] q] eqn:Q; try discriminate; injection H as <-; [apply G; reflexivity..|eapply calm_id; eauto].
    - (* lock by the backend *)
      destruct (s_bk s) as [|v|] eqn:B; try discriminate. destruct (s_lock s) eqn:L; try discriminate. destruct I as [I1 I2 I3 I4 I5]. rewrite L in I4.
      destruct (s_slot s) as [g|] eqn:S.
      + destruct (nth_error (s_procs s) g) as [p|] eqn:P; [|discriminate]. pose proof (nth_lt _ _ _ P) as LT. destruct v.
        * cbn in H. injection H as <-. constructor; cbn; try discriminate.
          -- intros g0 E. rewrite set_nth_length by exact LT. apply I2. congruence.
          -- split; [reflexivity|]. split; [exact S|]. split; [apply I3; exact B|]. eexists. split; [apply nth_set_eq; exact LT|]. cbn. intros A. rewrite A. apply last_order_app.
          -- eauto.
        * injection H as <-. assert (F : s_flag s = false) by (apply I3; exact B). constructor; cbn; try discriminate.
          -- rewrite S. intros g0 p0 E Hp _. injection E as <-. rewrite nth_set_eq in Hp by exact LT. injection Hp as <-. rewrite F. unfold follows, resume_proc. cbn. intros A. rewrite A. split; [reflexivity|]. apply last_order_app.
          -- intros g0 E. rewrite set_nth_length by exact LT. apply I2. congruence.
          -- rewrite L. exact Logic.I.
      + injection H as <-. constructor; cbn; try discriminate; rewrite ?S, ?L; try discriminate. exact Logic.I.
    - (* stop by the backend *)
      destruct (s_lock s) as [|j|j g|j g id|j g|g id] eqn:L; try discriminate. injection H as <-. destruct I as [I1 I2 I3 I4 I5]. rewrite L in I4. destruct I4 as (B & S & F & p & P & K). pose proof (nth_lt _ _ _ P) as LT.
      unfold at_proc. rewrite P. constructor; cbn; try discriminate; auto.
      + intros g0 p0 E Hp _. assert (g0 = g) by congruence. subst g0. rewrite nth_set_eq in Hp by exact LT. injection Hp as <-. rewrite F. unfold follows, pause_stop. cbn. intros A. rewrite A. split; [reflexivity|]. apply K. exact A.
      + intros g0 E. rewrite set_nth_length by exact LT. auto.
    - (* cancel *)
      destruct (s_bk s) eqn:B; try discriminate. destruct (s_lock s) eqn:L; try discriminate. destruct (s_slot s) as [g|] eqn:S; try discriminate. injection H as <-. destruct I as [I1 I2 I3 I4 I5].
      unfold at_proc. destruct (nth_error _ _); (constructor; cbn; rewrite ?B, ?L; try discriminate; auto).
    - destruct (s_jobs s j); try discriminate. injection H as <-. eapply calm_id; eauto.
    - destruct (s_jobs s j); try discriminate. destruct (s_lock s) eqn:L; try discriminate. destruct (s_slot s) eqn:S; try discriminate. injection H as <-. eapply calm_id; eauto.
    - destruct (s_jobs s j); try discriminate. destruct (s_lock s) eqn:L; try discriminate. injection H as <-. destruct I as [I1 I2 I3 I4 I5]. constructor; cbn; auto.
      intros X. destruct (I5 X) as (? & ? & Y). congruence.
    - destruct (s_lock s) eqn:L; try discriminate. injection H as <-. destruct I as [I1 I2 I3 I4 I5]. constructor; cbn; auto. intros X. destruct (I5 X) as (? & ? & Y). congruence.
    - (* spawned *)
      destruct (s_lock s) eqn:L; try discriminate. injection H as <-. destruct I as [I1 I2 I3 I4 I5]. constructor; cbn; auto.
      + intros g p E Hp. rewrite nth_error_app1 in Hp by auto. eauto.
      + intros g E. rewrite app_length. cbn. specialize (I2 _ E). lia.
      + exists new_proc. split; [rewrite nth_error_app2, Nat.sub_diag by lia; reflexivity|]. split; [intros _; split; reflexivity|]. intros E. specialize (I2 _ E). lia.
      + intros X. destruct (I5 X) as (? & ? & Y). congruence.
    - (* read the flag *)
      destruct (s_lock s) as [|j|j g|j g id|j g|g id] eqn:L; try discriminate. destruct I as [I1 I2 I3 I4 I5]. rewrite L in I4. destruct I4 as (p & P & F & NS). destruct (s_flag s) eqn:FL.
      + rewrite P in H. cbn in H. injection H as <-. pose proof (nth_lt _ _ _ P) as LT. constructor; cbn; auto; rewrite ?FL.
        * intros g0 p0 E Hp B. rewrite nth_set_neq in Hp; [eauto|exact LT|congruence].
        * intros g0 E. rewrite set_nth_length by exact LT. auto.
        * exact I3.
        * split; [|split; [exact NS|auto]]. eexists. split; [apply nth_set_eq; exact LT|]. cbn. intros A. rewrite A. apply last_order_app.
        * intros X. destruct (I5 X) as (? & ? & Y). congruence.
      + injection H as <-. constructor; cbn; rewrite ?FL; auto.
        * exists p. auto.
        * intros X. destruct (I5 X) as (? & ? & Y). congruence.
    - (* stop while spawning *)
      destruct (s_lock s) as [|j|j g|j g id|j g|g id] eqn:L; try discriminate. injection H as <-. destruct I as [I1 I2 I3 I4 I5]. rewrite L in I4. destruct I4 as ((p & P & K) & NS & F). pose proof (nth_lt _ _ _ P) as LT.
      unfold at_proc. rewrite P. constructor; cbn; auto.
      + intros g0 p0 E Hp B. rewrite nth_set_neq in Hp; [eauto|exact LT|congruence].
      + intros g0 E. rewrite set_nth_length by exact LT. auto.
      + eexists. split; [apply nth_set_eq; exact LT|]. intros B. rewrite (F B). unfold follows, pause_stop. cbn. intros A. rewrite A. split; [reflexivity|]. apply K. exact A.
      + intros X. destruct (I5 X) as (? & ? & Y). congruence.
    - (* set the slot *)
      destruct (s_lock s) as [|j|j g|j g id|j g|g id] eqn:L; try discriminate. injection H as <-. destruct I as [I1 I2 I3 I4 I5]. rewrite L in I4. destruct I4 as (p & P & F). constructor; cbn; auto.
      + intros g0 p0 E Hp B. injection E as <-. rewrite P in Hp. injection Hp as <-. auto.
      + intros g0 E. injection E as <-. eapply nth_lt; eauto.
      + intros X. destruct (I5 X) as (? & ? & Y). congruence.
    - destruct (s_jobs s j); try discriminate. destruct (nth_error (s_procs s) g) as [p|] eqn:P; try discriminate. injection H as <-. eapply calm_one; eauto; [reflexivity|]. intros A. cbn in A |- *. auto.
    - destruct (s_jobs s j); try discriminate. destruct (nth_error (s_procs s) g) as [p|] eqn:P; try discriminate. destruct ok; injection H as <-; (eapply calm_one; eauto; [reflexivity|]); intros A; cbn in A |- *; auto.
      rewrite A. rewrite last_order_app. auto.
    - destruct (s_jobs s j); try discriminate. destruct (s_chan s j) as [[|]|]; try discriminate; injection H as <-; eapply calm_id; eauto.
    - destruct (s_jobs s j); try discriminate. destruct (s_chan s j); try discriminate. destruct (_ <=? _); try discriminate. injection H as <-. eapply calm_id; eauto.
    - destruct (s_jobs s j); try discriminate. injection H as <-. unfold at_proc. destruct (nth_error (s_procs s) g) as [p|] eqn:P; [|eapply calm_id; eauto]. eapply calm_one; eauto; [reflexivity|]. intros A. discriminate A.
    - (* discard *)
      destruct (s_jobs s j); try discriminate. destruct (s_lock s) eqn:L; try discriminate. injection H as <-. destruct (s_slot s) as [g'|] eqn:S; [|eapply calm_id; eauto]. destruct (g' =? g); [|eapply calm_id; eauto].
      destruct I as [I1 I2 I3 I4 I5]. constructor; cbn; rewrite ?L; try discriminate; auto. intros X. destruct (I5 X) as (? & ? & Y). congruence.
    - destruct (nth_error (s_procs s) g) as [p|] eqn:P; try discriminate. destruct (_ && _) eqn:A; try discriminate. apply andb_true_iff in A as [A1 A2]. apply negb_true_iff in A2.
      destruct (p_in p) as [|[id j|id|] l] eqn:PI; try discriminate; injection H as <-; (eapply calm_one; eauto; [reflexivity|]); intros A; cbn; rewrite PI; auto.
    - destruct (nth_error (s_procs s) g) as [p|] eqn:P; try discriminate. destruct (_ && _) eqn:A; try discriminate. apply andb_true_iff in A as [A A3]. apply andb_true_iff in A as [A1 A2]. apply negb_true_iff in A2, A3.
      destruct (nth_error (p_work p) k) as [[id j]|]; try discriminate. injection H as <-. eapply calm_one; eauto; [reflexivity|]. intros A. cbn. rewrite A3. auto.
    - destruct (nth_error (s_procs s) g) as [p|] eqn:P; try discriminate. destruct (p_reader p); try discriminate. destruct (p_out p) as [|[id r|id] l]; try discriminate.
      + destruct (find_job _ _); injection H as <-; (eapply calm_one; eauto; [reflexivity|]); intros A; cbn in A |- *; auto.
      + injection H as <-. eapply calm_one; eauto; [reflexivity|]. intros A; cbn in A |- *; auto.
    - destruct (nth_error (s_procs s) g) as [p|] eqn:P; try discriminate. destruct (p_reader p); try discriminate. injection H as <-. eapply calm_one; eauto; [reflexivity|]. intros A; cbn in A |- *; auto.
    - destruct (nth_error (s_procs s) g) as [p|] eqn:P; try discriminate. destruct (p_alive p); try discriminate. injection H as <-. eapply calm_one; eauto; [reflexivity|]. intros A; discriminate A.
  Qed.
  Lemma flag_inv l s : history compiled timeout cap l s -> inv_flag s.
  Proof. apply run_inv; [exact flag_step|]. constructor; cbn; try discriminate. exact Logic.I. Qed.

  (** ** Responses. *)
  Definition reg (x : jst (R:=R)) : option (nat * nat) := match x with JReg g id | JWait g id _ | JLate g id => Some (g, id) | _ => None end.
  Definition early (x : jst (R:=R)) : bool := match x with JNone | JNew | JHave _ => true | _ => false end.
  Definition asked (p : proc) (id j : nat) : Prop := In (MJob id j) (p_in p) \/ In (id, j) (p_work p).
  Record inv_resp s : Prop := {
    ir_reg : forall j g id, reg (s_jobs s j) = Some (g, id) -> exists p, nth_error (s_procs s) g = Some p /\ id < p_next p;
    ir_uniq : forall j j' x, reg (s_jobs s j) = Some x -> reg (s_jobs s j') = Some x -> j = j';
    ir_pend : forall g p id j, nth_error (s_procs s) g = Some p -> In (id, j) (p_pending p) -> reg (s_jobs s j) = Some (g, id);
    ir_ask : forall g p id j, nth_error (s_procs s) g = Some p -> asked p id j -> id < p_next p /\ forall j', In (id, j') (p_pending p) -> j' = j;
    ir_out : forall g p id r, nth_error (s_procs s) g = Some p -> In (OJob id r) (p_out p) -> id < p_next p /\ forall j', In (id, j') (p_pending p) -> r = compiled j';
    ir_chan : forall j x, s_chan s j = Some x -> (x = inl (compiled j) \/ x = inr EDisc) /\ early (s_jobs s j) = false /\ forall g p id, nth_error (s_procs s) g = Some p -> ~ In (id, j) (p_pending p);
    ir_done : forall j r, s_jobs s j = JDone (inl r) -> r = compiled j
  }.
  Definition shrink (p p' : proc) : Prop := p_next p <= p_next p' /\ incl (p_pending p') (p_pending p) /\ (forall id j, asked p' id j -> asked p id j) /\
    (forall id r, In (OJob id r) (p_out p') -> In (OJob id r) (p_out p) \/ exists j, asked p id j /\ r = compiled j).
  Lemma resp_gen s s' : inv_resp s ->
    (forall k p', nth_error (s_procs s') k = Some p' -> (exists p, nth_error (s_procs s) k = Some p /\ shrink p p') \/ p' = new_proc) ->
    (forall k p, nth_error (s_procs s) k = Some p -> exists p', nth_error (s_procs s') k = Some p' /\ p_next p <= p_next p') ->
    (forall i, reg (s_jobs s' i) = reg (s_jobs s i) \/ (reg (s_jobs s' i) = None /\ forall k p' id, nth_error (s_procs s') k = Some p' -> ~ In (id, i) (p_pending p'))) ->
    (forall i r, s_jobs s' i = JDone (inl r) -> r = compiled i) -> (forall i, early (s_jobs s' i) = true -> early (s_jobs s i) = true) ->
    s_chan s' = s_chan s -> inv_resp s'.
  Proof.
    intros [I1 I2 I3 I4 I5 I6 I7] P P2 J D E C. constructor; auto.
    - intros j g id H. destruct (J j) as [X|[X _]]; [|congruence]. rewrite X in H. destruct (I1 _ _ _ H) as (p & Hp & L). destruct (P2 _ _ Hp) as (p' & Hp' & L'). exists p'. split; [exact Hp'|lia].
    - intros j j' x H H'. destruct (J j) as [X|[X _]]; [|congruence]. destruct (J j') as [Y|[Y _]]; [|congruence]. apply (I2 j j' x); congruence.
    - intros g p' id j Hp Hin. destruct (P _ _ Hp) as [(p & Hq & _ & S & _)| ->]; [|destruct Hin]. destruct (J j) as [X|[_ X]]; [|exfalso; eapply X; eauto]. rewrite X. eapply I3; eauto.
    - intros g p' id j Hp Hin. destruct (P _ _ Hp) as [(p & Hq & N & S & A & _)| ->]; [|destruct Hin as [[]|[]]]. destruct (I4 _ _ _ _ Hq (A _ _ Hin)) as [L U]. split; [lia|]. intros j' X. apply U. apply S. exact X.
    - intros g p' id r Hp Hin. destruct (P _ _ Hp) as [(p & Hq & N & S & A & O)| ->]; [|destruct Hin]. destruct (O _ _ Hin) as [X|(j & X & ->)].
      + destruct (I5 _ _ _ _ Hq X) as [L U]. split; [lia|]. intros j' Y. apply U, S, Y.
      + destruct (I4 _ _ _ _ Hq X) as [L U]. split; [lia|]. intros j' Y. rewrite (U j') by (apply S, Y). reflexivity.
    - intros j x H. rewrite C in H. destruct (I6 _ _ H) as (X & Y & Z). split; [exact X|]. split; [destruct (early (s_jobs s' j)) eqn:Q; [apply E in Q; congruence|reflexivity]|].
      intros g p' id Hp Hin. destruct (P _ _ Hp) as [(p & Hq & _ & S & _)| ->]; [|destruct Hin]. eapply Z; eauto.
  Qed.
  Lemma shrink_refl p : shrink p p. Proof. unfold shrink. split; [lia|]. split; [apply incl_refl|]. auto. Qed.
  Lemma resp_id s s' : inv_resp s -> s_procs s' = s_procs s -> s_jobs s' = s_jobs s -> s_chan s' = s_chan s -> inv_resp s'.
  Proof. intros [I1 I2 I3 I4 I5 I6 I7] EP EJ EC. constructor; rewrite ?EP, ?EJ, ?EC; auto. Qed.
  Lemma resp_proc s s' g p p' : inv_resp s -> nth_error (s_procs s) g = Some p -> s_procs s' = set_nth (s_procs s) g p' -> shrink p p' -> s_jobs s' = s_jobs s -> s_chan s' = s_chan s -> inv_resp s'.
  Proof.
    intros I HP EP S EJ EC. pose proof (nth_lt _ _ _ HP) as L. eapply resp_gen; eauto; rewrite ?EP, ?EJ; auto.
    - intros k q. rewrite nth_set by exact L. destruct (Nat.eqb_spec k g) as [->|N]; intros H; left; [injection H as <-; eauto|]. exists q. split; [exact H|apply shrink_refl].
    - intros k q H. rewrite nth_set by exact L. destruct (Nat.eqb_spec k g) as [->|N]; [|eauto]. exists p'. split; [reflexivity|]. rewrite HP in H. injection H as <-. apply S.
    - intros i r H. destruct I as [_ _ _ _ _ _ I7]. eauto.
  Qed.
  Lemma resp_job s s' j v : inv_resp s -> s_procs s' = s_procs s -> s_jobs s' = upd (s_jobs s) j v -> s_chan s' = s_chan s ->
    (reg v = reg (s_jobs s j) \/ (reg v = None /\ forall k p' id, nth_error (s_procs s) k = Some p' -> ~ In (id, j) (p_pending p'))) ->
    (forall r, v = JDone (inl r) -> r = compiled j) -> (early v = true -> early (s_jobs s j) = true) -> inv_resp s'.
  Proof.
    intros I EP EJ EC G D E. eapply resp_gen; eauto; rewrite ?EP, ?EJ.
    - intros k q H. left. exists q. split; [exact H|apply shrink_refl].
    - eauto.
    - intros i. unfold upd. destruct (Nat.eqb_spec i j) as [->|N]; auto.
    - intros i r. unfold upd. destruct (Nat.eqb_spec i j) as [->|N]; auto. apply I.
    - intros i. unfold upd. destruct (Nat.eqb_spec i j) as [->|N]; auto.
  Qed.
  Lemma none_pending s j : inv_resp s -> reg (s_jobs s j) = None -> forall k p' id, nth_error (s_procs s) k = Some p' -> ~ In (id, j) (p_pending p').
  Proof. intros I H k p' id Hp Hin. rewrite (ir_pend _ I _ _ _ _ Hp Hin) in H. discriminate. Qed.
  Lemma in_drop id q l : In q (drop_id id l) <-> In q l /\ fst q <> id.
  Proof. unfold drop_id. rewrite filter_In, negb_true_iff, Nat.eqb_neq. tauto. Qed.
  Lemma find_job_in id l j : find_job id l = Some j -> In (id, j) l.
  Proof. unfold find_job. destruct (find _ l) as [[a b]|] eqn:E; [|discriminate]. intros H. injection H as <-. apply find_some in E as [E1 E2]. apply Nat.eqb_eq in E2. cbn in *. congruence. Qed.
  (** A job leaves the pending map of its helper. *)
  Lemma leave s j g id p p' : inv_resp s -> reg (s_jobs s j) = Some (g, id) -> nth_error (s_procs s) g = Some p -> p_pending p' = drop_id id (p_pending p) ->
    forall k q i, nth_error (set_nth (s_procs s) g p') k = Some q -> ~ In (i, j) (p_pending q).
  Proof.
    intros I H HP EP k q i. pose proof (nth_lt _ _ _ HP) as L. rewrite nth_set by exact L. destruct (Nat.eqb_spec k g) as [->|N]; intros HQ Hin.
    - injection HQ as <-. rewrite EP, in_drop in Hin. destruct Hin as [Hin NE]. pose proof (ir_pend _ I _ _ _ _ HP Hin). cbn in NE. congruence.
    - pose proof (ir_pend _ I _ _ _ _ HQ Hin). congruence.
  Qed.
  Lemma resp_leave s s' j g id p p' v : inv_resp s -> reg (s_jobs s j) = Some (g, id) -> nth_error (s_procs s) g = Some p -> p_pending p' = drop_id id (p_pending p) -> shrink p p' ->
    s_procs s' = set_nth (s_procs s) g p' -> s_jobs s' = upd (s_jobs s) j v -> s_chan s' = s_chan s -> reg v = None -> early v = false -> (forall r, v <> JDone (inl r)) -> inv_resp s'.
  Proof.
    intros I H HP EP S EQ EJ EC V1 V2 V3. pose proof (nth_lt _ _ _ HP) as L. eapply resp_gen; eauto; rewrite ?EQ, ?EJ.
    - intros k q. rewrite nth_set by exact L. destruct (Nat.eqb_spec k g) as [->|N]; intros X; left; [injection X as <-; eauto|]. exists q. split; [exact X|apply shrink_refl].
    - intros k q X. rewrite nth_set by exact L. destruct (Nat.eqb_spec k g) as [->|N]; [|eauto]. exists p'. split; [reflexivity|]. rewrite HP in X. injection X as <-. apply S.
    - intros i. unfold upd. destruct (Nat.eqb_spec i j) as [->|N]; [|auto]. right. split; [exact V1|]. eapply leave; eauto.
    - intros i r. unfold upd. destruct (Nat.eqb_spec i j) as [->|N]; [intros X; exfalso; eapply V3; eauto|apply I].
    - intros i. unfold upd. destruct (Nat.eqb_spec i j) as [->|N]; [congruence|auto].
  Qed.
  Ltac shr := unfold shrink, asked; cbn; split; [lia|]; split; [try apply incl_refl; try (intros ? ?; contradiction); try (intros ? X; apply in_drop in X; tauto)|]; split; [intros ? ?|intros ? ?]; rewrite ?in_app_iff; cbn; auto.
  Definition holder (l : lock) : option nat := match l with LSpawn j | LMade j _ | LStopping j _ _ | LReady j _ => Some j | _ => None end.
  Definition inv_lock s : Prop := forall j, holder (s_lock s) = Some j -> s_jobs s j = JNew.
  Lemma lock_keep s (K : inv_lock s) s' : holder (s_lock s') = None \/ (holder (s_lock s') = holder (s_lock s) /\ forall i, s_jobs s i = JNew -> s_jobs s' i = JNew) -> inv_lock s'.
  Proof. intros [H|[H J]] j E; [congruence|]. apply J, K. congruence. Qed.
  Lemma upd_keep s j v : s_jobs s j <> JNew -> forall i, s_jobs s i = JNew -> upd (s_jobs s) j v i = JNew.
  Proof. intros N i E. unfold upd. destruct (Nat.eqb_spec i j) as [->|M]; congruence. Qed.
  Lemma lock_step s a s' : inv_lock s -> step s a = Some s' -> inv_lock s'.
  Proof.
    intros K H. destruct a; cbn [HelperModel.step] in H; unfold send_control in H; crack H; try (intros i E; cbn in *; congruence);
      apply (lock_keep s K); unfold at_proc; repeat match goal with |- context [match ?x with _ => _ end] => destruct x end;
      first [left; reflexivity | right; (split; [reflexivity|]); first [intros ? ?; assumption|apply upd_keep; congruence] | right; (split; [match goal with E : s_lock s = _ |- _ => rewrite E end; reflexivity|intros ? ?; assumption]) | left; cbn; match goal with E : s_lock s = _ |- _ => rewrite E end; reflexivity | right; (split; [reflexivity|]); intros ? ?; cbn; apply upd_keep; [congruence|assumption]].
  Qed.
  Ltac rj E := first [solve [rewrite E; auto] | solve [intros; discriminate] | solve [intros; rewrite E; auto]| idtac].
  Lemma resp_step s a s' : inv_resp s -> inv_lock s -> step s a = Some s' -> inv_resp s'.
  Proof.
    intros I K H. unfold inv_lock in K. destruct a; cbn [HelperModel.step] in H.
    - injection H as <-. eapply resp_id; eauto.
    - injection H as <-. eapply resp_id; eauto.
    - destruct (nth_error _ _) as [[|]|]; [| |discriminate]; injection H as <-; [|eapply resp_id; eauto]. unfold send_control. destruct (negb _); [|destruct (_ <? _)]; eapply resp_id; eauto.
    - destruct (_ =? _); [discriminate|]. injection H as <-. eapply resp_id; eauto.
    - destruct (_ =? _); [discriminate|]. injection H as <-. unfold send_control. destruct (negb _); [|destruct (_ <? _)]; eapply resp_id; eauto.
    - injection H as <-. eapply resp_id; eauto.
    - destruct (_ && _); [|discriminate]. injection H as <-. eapply resp_id; eauto.
    - destruct (s_bk s); try discriminate. destruct (s_queue s) as [|[| |] q]; try discriminate; injection H as <-; eapply resp_id; eauto.
    - destruct (s_bk s) as [|v|]; try discriminate. destruct (s_lock s); try discriminate. destruct (s_slot s) as [g|]; [|injection H as <-; eapply resp_id; eauto].
      destruct (nth_error (s_procs s) g) as [p|] eqn:P; [|discriminate]. destruct v; cbn in H; injection H as <-; (eapply resp_proc; eauto; [reflexivity|]).
      + shr; destruct (p_alive p); rewrite ?in_app_iff; cbn; intuition discriminate.
      + shr; destruct (p_alive p); rewrite ?in_app_iff; cbn; intuition discriminate.
    - destruct (s_lock s) as [|j|j g|j g id|j g|g id]; try discriminate. injection H as <-. unfold at_proc. destruct (nth_error (s_procs s) g) as [p|] eqn:P; [|eapply resp_id; eauto]. eapply resp_proc; eauto; [reflexivity|]. shr.
    - destruct (s_bk s); try discriminate. destruct (s_lock s); try discriminate. destruct (s_slot s) as [g|]; try discriminate. injection H as <-. unfold at_proc. cbn. destruct (nth_error (s_procs s) g) as [p|] eqn:P; [|eapply resp_id; eauto].
      eapply resp_proc; eauto; [reflexivity|]. shr. tauto.
    - destruct (s_jobs s j) eqn:J; try discriminate. injection H as <-. eapply resp_job; [exact I|reflexivity|reflexivity|reflexivity|..]; rj J.
    - destruct (s_jobs s j) eqn:J; try discriminate. destruct (s_lock s); try discriminate. destruct (s_slot s); try discriminate. injection H as <-. eapply resp_job; [exact I|reflexivity|reflexivity|reflexivity|..]; rj J.
    - destruct (s_jobs s j); try discriminate. destruct (s_lock s); try discriminate. injection H as <-. eapply resp_id; eauto.
    - destruct (s_lock s) as [|j|j g|j g id|j g|g id]; try discriminate. injection H as <-. specialize (K _ eq_refl). eapply resp_job; [exact I|reflexivity|reflexivity|reflexivity|..]; rj K.
    - destruct (s_lock s) as [|j|j g|j g id|j g|g id]; try discriminate. injection H as <-. eapply resp_gen; eauto; cbn; auto.
      + intros k q X. destruct (lt_dec k (length (s_procs s))) as [L|L]; [rewrite nth_error_app1 in X by exact L; left; exists q; split; [exact X|apply shrink_refl]|].
        rewrite nth_error_app2 in X by lia. destruct (k - length (s_procs s)) as [|n]; [injection X as <-; auto|destruct n; discriminate].
      + intros k q X. exists q. split; [|lia]. rewrite nth_error_app1; [exact X|eapply nth_lt; eauto].
      + apply I.
    - destruct (s_lock s) as [|j|j g|j g id|j g|g id]; try discriminate. destruct (s_flag s); [|injection H as <-; eapply resp_id; eauto]. destruct (nth_error (s_procs s) g) as [p|] eqn:P; [|discriminate]. cbn in H. injection H as <-. eapply resp_proc; eauto; [reflexivity|].
      shr; destruct (p_alive p); rewrite ?in_app_iff; cbn; intuition discriminate.
    - destruct (s_lock s) as [|j|j g|j g id|j g|g id]; try discriminate. injection H as <-. unfold at_proc. destruct (nth_error (s_procs s) g) as [p|] eqn:P; [|eapply resp_id; eauto]. eapply resp_proc; eauto; [reflexivity|]. shr.
    - destruct (s_lock s) as [|j|j g|j g id|j g|g id]; try discriminate. injection H as <-. specialize (K _ eq_refl). eapply resp_job; [exact I|reflexivity|reflexivity|reflexivity|..]; rj K.
    - (* register *)
      destruct (s_jobs s j) as [| |g| | | | |] eqn:J; try discriminate. destruct (nth_error (s_procs s) g) as [p|] eqn:P; [|discriminate]. injection H as <-. pose proof (nth_lt _ _ _ P) as LT. destruct I as [I1 I2 I3 I4 I5 I6 I7].
      assert (NP : forall k q id, nth_error (s_procs s) k = Some q -> ~ In (id, j) (p_pending q)). { intros k q id Hq X. pose proof (I3 _ _ _ _ Hq X) as Y. rewrite J in Y. discriminate. }
      constructor; cbn.
      + intros i g0 id. unfold upd. destruct (Nat.eqb_spec i j) as [->|N].
        * cbn. intros X. injection X as <- <-. eexists. split; [apply nth_set_eq; exact LT|]. cbn. lia.
        * intros X. destruct (I1 _ _ _ X) as (q & Q1 & Q2). rewrite nth_set by exact LT. destruct (Nat.eqb_spec g0 g) as [->|N2]; [|eauto]. eexists. split; [reflexivity|]. cbn. assert (q = p) by congruence. subst q. lia.
      + assert (F : forall i, reg (s_jobs s i) <> Some (g, p_next p)). { intros i X. destruct (I1 _ _ _ X) as (q & Q1 & Q2). assert (q = p) by congruence. subst q. lia. }
        intros i i' x. unfold upd. destruct (Nat.eqb_spec i j) as [->|N], (Nat.eqb_spec i' j) as [->|N']; cbn; auto; [intros X Y; exfalso; apply (F i'); congruence|intros X Y; exfalso; apply (F i); congruence|apply I2].
      + intros g0 q id i Hq Hin. unfold upd. rewrite nth_set in Hq by exact LT. destruct (Nat.eqb_spec g0 g) as [->|N].
        * injection Hq as <-. cbn in Hin. destruct Hin as [X|X]; [injection X as <- <-; rewrite Nat.eqb_refl; reflexivity|]. destruct (Nat.eqb_spec i j) as [->|N2]; [exfalso; eapply NP; eauto|eauto].
        * destruct (Nat.eqb_spec i j) as [->|N2]; [exfalso; eapply NP; eauto|eauto].
      + intros g0 q id i Hq A. rewrite nth_set in Hq by exact LT. destruct (Nat.eqb_spec g0 g) as [->|N]; [|eauto]. injection Hq as <-. destruct (I4 _ _ _ _ P A) as [X Y]. cbn. split; [lia|].
        intros j' [Z|Z]; [injection Z as <- <-; lia|auto].
      + intros g0 q id r Hq A. rewrite nth_set in Hq by exact LT. destruct (Nat.eqb_spec g0 g) as [->|N]; [|eauto]. injection Hq as <-. destruct (I5 _ _ _ _ P A) as [X Y]. cbn. split; [lia|].
        intros j' [Z|Z]; [injection Z as <- <-; lia|auto].
      + intros i x X. destruct (I6 _ _ X) as (Y & Z & W). split; [exact Y|]. unfold upd. destruct (Nat.eqb_spec i j) as [->|N]; [rewrite J in Z; discriminate|]. split; [exact Z|].
        intros g0 q id Hq Hin. rewrite nth_set in Hq by exact LT. destruct (Nat.eqb_spec g0 g) as [->|N2]; [|eapply W; eauto]. injection Hq as <-. cbn in Hin. destruct Hin as [Hin|Hin]; [congruence|eapply W; eauto].
      + intros i r. unfold upd. destruct (Nat.eqb_spec i j) as [->|N]; [discriminate|apply I7].
    - (* write *)
      destruct (s_jobs s j) as [| | |g id| | | |] eqn:J; try discriminate. destruct (nth_error (s_procs s) g) as [p|] eqn:P; [|discriminate]. pose proof (nth_lt _ _ _ P) as LT. destruct ok; injection H as <-.
      + destruct I as [I1 I2 I3 I4 I5 I6 I7]. destruct (I1 j g id) as (q & Q1 & Q2); [rewrite J; reflexivity|]. assert (q = p) by congruence. subst q.
        assert (RG : forall i, reg (upd (s_jobs s) j (JWait g id (s_now s)) i) = reg (s_jobs s i)). { intros i. unfold upd. destruct (Nat.eqb_spec i j) as [->|N]; [rewrite J|]; reflexivity. }
        constructor; cbn.
        * intros i g0 id0. rewrite RG. intros X. destruct (I1 _ _ _ X) as (q & Q3 & Q4). rewrite nth_set by exact LT. destruct (Nat.eqb_spec g0 g) as [->|N2]; [|eauto]. eexists. split; [reflexivity|]. cbn. congruence.
        * intros i i' x. rewrite !RG. apply I2.
        * intros g0 q id0 i Hq Hin. rewrite RG. rewrite nth_set in Hq by exact LT. destruct (Nat.eqb_spec g0 g) as [->|N]; [injection Hq as <-; cbn in Hin|]; eauto.
        * intros g0 q id0 i Hq A. rewrite nth_set in Hq by exact LT. destruct (Nat.eqb_spec g0 g) as [->|N]; [|eauto]. injection Hq as <-. cbn.
          assert (asked p id0 i \/ (id0 = id /\ i = j)) as [B|[-> ->]]; [|eauto|].
          { unfold asked in A |- *. cbn in A. destruct (p_alive p); [|tauto]. rewrite in_app_iff in A. cbn in A. intuition. right. split; congruence. }
          split; [exact Q2|]. intros j' Hin. pose proof (I3 _ _ _ _ P Hin) as X. apply (I2 _ _ _ X). rewrite J. reflexivity.
        * intros g0 q id0 r Hq A. rewrite nth_set in Hq by exact LT. destruct (Nat.eqb_spec g0 g) as [->|N]; [injection Hq as <-; cbn in A |- *|]; eauto.
        * intros i x X. destruct (I6 _ _ X) as (Y & Z & W). split; [exact Y|]. split; [unfold upd; destruct (Nat.eqb_spec i j) as [->|N]; auto|].
          intros g0 q id0 Hq Hin. rewrite nth_set in Hq by exact LT. destruct (Nat.eqb_spec g0 g) as [->|N]; [injection Hq as <-; cbn in Hin|]; eapply W; eauto.
        * intros i r. unfold upd. destruct (Nat.eqb_spec i j) as [->|N]; [discriminate|apply I7].
      + eapply resp_leave with (j := j) (id := id); eauto; try reflexivity; [rewrite J; reflexivity|reflexivity|shr|discriminate].
    - (* receive *)
      destruct (s_jobs s j) as [| | | |g id w| | |] eqn:J; try discriminate. destruct (s_chan s j) as [[r|e]|] eqn:C; try discriminate; injection H as <-; destruct (ir_chan _ I _ _ C) as (X & _ & Z).
      + eapply resp_job; [exact I|reflexivity|reflexivity|reflexivity|right; split; [reflexivity|exact Z]| |discriminate]. intros r0 E. injection E as <-. destruct X as [X|X]; congruence.
      + eapply resp_job; [exact I|reflexivity|reflexivity|reflexivity|right; split; [reflexivity|exact Z]|discriminate|discriminate].
    - destruct (s_jobs s j) as [| | | |g id w| | |] eqn:J; try discriminate. destruct (s_chan s j); try discriminate. destruct (_ <=? _); try discriminate. injection H as <-.
      eapply resp_job; [exact I|reflexivity|reflexivity|reflexivity|..]; [left; rewrite J|..]; destruct (s_flag s); try reflexivity; intros; discriminate.
    - destruct (s_jobs s j) as [| | | | |g id| |] eqn:J; try discriminate. injection H as <-. destruct (ir_reg _ I j g id) as (p & P & _); [rewrite J; reflexivity|]. unfold at_proc. rewrite P.
      eapply resp_leave with (j := j) (id := id); eauto; try reflexivity; [rewrite J; reflexivity|reflexivity|shr; tauto|discriminate].
    - destruct (s_jobs s j) as [| | | | | |g e|] eqn:J; try discriminate. destruct (s_lock s); try discriminate. injection H as <-.
      assert (NP := none_pending s j I). rewrite J in NP. specialize (NP eq_refl).
      destruct (s_slot s) as [g'|]; [destruct (g' =? g)|]; (eapply resp_job; [exact I|reflexivity|reflexivity|reflexivity|..]; rewrite ?J; auto; discriminate).
    - destruct (nth_error (s_procs s) g) as [p|] eqn:P; try discriminate. destruct (_ && _); try discriminate.
      destruct (p_in p) as [|[id j|id|] l] eqn:PI; try discriminate; injection H as <-; (eapply resp_proc; eauto; [reflexivity|]); shr; rewrite PI; cbn; intuition (try discriminate); try (left; left; congruence).
    - destruct (nth_error (s_procs s) g) as [p|] eqn:P; try discriminate. destruct (_ && _); try discriminate. destruct (nth_error (p_work p) k) as [[id j]|] eqn:W; try discriminate. injection H as <-. eapply resp_proc; eauto; [reflexivity|]. shr.
      + intros [X|X]; [auto|right; eapply in_remove; eauto].
      + intros [X|[X|[]]]; [auto|]. injection X as <- <-. right. exists j. split; [|reflexivity]. right. eapply nth_error_In; eauto.
    - (* the reader *)
      destruct (nth_error (s_procs s) g) as [p|] eqn:P; try discriminate. destruct (p_reader p); try discriminate. destruct (p_out p) as [|[id r|id] l] eqn:PO; try discriminate.
      + set (p' := mkProc _ _ _ _ _ _ _ _ _ _) in H. assert (SH : shrink p p') by (unfold p'; shr; rewrite PO; cbn; auto).
        assert (B : inv_resp (set_procs s (set_nth (s_procs s) g p'))) by (eapply resp_proc; eauto; reflexivity).
        destruct (find_job id (p_pending p)) as [j|] eqn:FJ; injection H as <-; [|exact B]. apply find_job_in in FJ.
        assert (RJ := ir_pend _ I _ _ _ _ P FJ). destruct (ir_out _ I g p id r P) as [_ CR]; [rewrite PO; left; reflexivity|]. specialize (CR _ FJ). subst r.
        pose proof (leave s j g id p p' I RJ P eq_refl) as LV. destruct B as [I1 I2 I3 I4 I5 I6 I7]. constructor; auto; cbn in *.
        intros i x. unfold upd. destruct (Nat.eqb_spec i j) as [->|N]; [|apply I6]. intros X. injection X as <-. split; [auto|]. split; [destruct (s_jobs s j); try discriminate RJ; reflexivity|]. intros g0 q id0 Hq. apply (LV _ _ id0 Hq).
      + injection H as <-. eapply resp_proc; eauto; [reflexivity|]. shr; rewrite PO; cbn; auto.
    - (* the reader fails *)
      destruct (nth_error (s_procs s) g) as [p|] eqn:P; try discriminate. destruct (p_reader p); try discriminate. injection H as <-. pose proof (nth_lt _ _ _ P) as LT.
      set (p' := mkProc _ _ _ _ _ _ _ _ _ _). assert (SH : shrink p p') by (unfold p'; shr).
      assert (B : inv_resp (set_procs s (set_nth (s_procs s) g p'))) by (eapply resp_proc; eauto; reflexivity).
      destruct B as [I1 I2 I3 I4 I5 I6 I7]. constructor; auto; cbn in *.
      intros i x. destruct (existsb _ _) eqn:EX; [|apply I6]. intros X. injection X as <-. apply existsb_exists in EX as ([id i'] & Hin & E). apply Nat.eqb_eq in E. cbn in E. subst i'.
      assert (RJ := ir_pend _ I _ _ _ _ P Hin). split; [auto|]. split; [destruct (s_jobs s i); try discriminate RJ; reflexivity|].
      intros g0 q id0 Hq Hin2. rewrite nth_set in Hq by exact LT. destruct (Nat.eqb_spec g0 g) as [->|N]; [injection Hq as <-; destruct Hin2|]. pose proof (ir_pend _ I _ _ _ _ Hq Hin2). congruence.
    - destruct (nth_error (s_procs s) g) as [p|] eqn:P; try discriminate. destruct (p_alive p); try discriminate. injection H as <-. eapply resp_proc; eauto; [reflexivity|]. shr. tauto.
  Qed.
  Lemma resp_inv l s : history compiled timeout cap l s -> inv_resp s.
  Proof.
    intros H. refine (proj1 (run_inv (fun s => inv_resp s /\ inv_lock s) _ l _ s _ H)).
    - intros s0 a s1 [I K] E. split; [eapply resp_step; eauto|eapply lock_step; eauto].
    - split; [|intros j E; discriminate]. constructor; cbn; try discriminate; intros g p; destruct g; discriminate.
  Qed.

  (** ** Timeouts. *)
  Definition late (x : jst (R:=R)) : bool := match x with JLate _ _ | JErr _ ETimeout | JDone (inr ETimeout) => true | _ => false end.
  Definition waits (x : jst (R:=R)) : bool := match x with JWait _ _ _ => true | _ => false end.
  Inductive jmove s s' (a : act) (j : nat) : Prop :=
  | M_same : s_jobs s' j = s_jobs s j -> jmove s s' a j
  | M_wait g id : s_jobs s' j = JWait g id (s_now s') -> jmove s s' a j
  | M_late g id w : a = AExpire j -> s_jobs s j = JWait g id w -> s_chan s j = None -> w + timeout <= s_now s -> s_flag s = false -> s_jobs s' j = JLate g id -> jmove s s' a j
  | M_more : late (s_jobs s j) = true -> waits (s_jobs s' j) = false -> jmove s s' a j
  | M_other : late (s_jobs s' j) = false -> waits (s_jobs s' j) = false -> jmove s s' a j.
  Lemma upd_eq {A} (f : nat -> A) i v : upd f i v i = v. Proof. unfold upd. rewrite Nat.eqb_refl. reflexivity. Qed.
  Lemma upd_neq {A} (f : nat -> A) i k v : k <> i -> upd f i v k = f k. Proof. intros N. unfold upd. destruct (Nat.eqb_spec k i); congruence. Qed.
  Lemma job_move s a s' j : inv_resp s -> step s a = Some s' -> jmove s s' a j.
  Proof.
    intros I H.
    destruct a; cbn [HelperModel.step] in H; unfold send_control, at_proc in H; crack H;
      first [solve [apply M_same; repeat match goal with |- context [match ?x with _ => _ end] => destruct x end; reflexivity]
            | (match goal with |- context [upd _ ?i _] => destruct (Nat.eq_dec j i) as [->|N] | |- context [set_job _ ?i _] => destruct (Nat.eq_dec j i) as [->|N] end);
              [|solve [apply M_same; cbn; repeat match goal with |- context [match ?x with _ => _ end] => destruct x end; cbn; apply upd_neq; exact N]]].
    all: try (apply M_other; cbn; rewrite upd_eq; reflexivity).
    all: try (eapply M_wait; cbn; rewrite upd_eq; reflexivity).
    all: try (apply M_more; [match goal with E : s_jobs _ _ = _ |- _ => rewrite E end; reflexivity|cbn; rewrite upd_eq; reflexivity]).
    - eapply M_other; cbn; rewrite upd_eq; [|reflexivity]. destruct (ir_chan _ I _ _ Heqo) as ([X|X] & _); [discriminate|]. injection X as ->. reflexivity.
    - destruct (s_flag s) eqn:F; [eapply M_wait; cbn; apply upd_eq|]. eapply M_late; eauto; [apply Nat.leb_le; assumption|cbn; apply upd_eq].
    - destruct e; [apply M_other|apply M_other|apply M_more|apply M_other]; repeat match goal with |- context [match ?x with _ => _ end] => destruct x end; cbn; rewrite ?upd_eq; try reflexivity.
      rewrite Heqj1. reflexivity.
  Qed.
  Definition began (l : list act) (j g id w : nat) : Prop :=
    exists a0 b0 s0, l = a0 ++ b0 /\ history compiled timeout cap a0 s0 /\ s_jobs s0 j = JWait g id w /\ s_now s0 = w.
  Definition expired (l : list act) (j : nat) : Prop :=
    exists a1 a2 s1 g id w, l = a1 ++ AExpire j :: a2 /\ history compiled timeout cap a1 s1 /\ s_jobs s1 j = JWait g id w /\ s_chan s1 j = None /\ w + timeout <= s_now s1 /\
      s_flag s1 = false /\ began a1 j g id w.
  Lemma began_app l l' j g id w : began l j g id w -> began (l ++ l') j g id w.
  Proof. intros (a0 & b0 & s0 & -> & H). exists a0, (b0 ++ l'), s0. rewrite app_assoc. auto. Qed.
  Lemma expired_app l l' j : expired l j -> expired (l ++ l') j.
  Proof. intros (a1 & a2 & s1 & g & id & w & -> & H). exists a1, (a2 ++ l'), s1, g, id, w. rewrite <- app_assoc. auto. Qed.
  Lemma timeout_trace j l : forall s, history compiled timeout cap l s ->
    (forall g id w, s_jobs s j = JWait g id w -> began l j g id w) /\ (late (s_jobs s j) = true -> expired l j).
  Proof.
    induction l as [|a l IH] using rev_ind; intros s H.
    - injection H as <-. cbn. split; discriminate.
    - pose proof H as HH. unfold history in H. rewrite run_app in H. destruct (run init l) as [s0|] eqn:E; [|discriminate]. cbn in H. destruct (step s0 a) as [s'|] eqn:ST; [|discriminate]. injection H as <-.
      destruct (IH _ E) as [B X]. pose proof (job_move _ _ _ j (resp_inv _ _ E) ST) as M.
      destruct M as [M|g id M|g id w -> M1 M2 M3 M4 M5|M1 M2|M1 M2].
      + rewrite M. split; [intros; apply began_app; eauto|intros; apply expired_app; eauto].
      + rewrite M. split; [|discriminate]. intros g0 id0 w0 Q. injection Q as <- <- <-. exists (l ++ [a]), [], s'. rewrite app_nil_r. auto.
      + rewrite M5. split; [discriminate|]. intros _. exists l, [], s0, g, id, w. split; [reflexivity|]. repeat (split; [assumption|]). apply B. exact M1.
      + split; [intros g id w Q; rewrite Q in M2; discriminate|]. intros _. apply expired_app. auto.
      + split; [intros g id w Q; rewrite Q in M2; discriminate|]. congruence.
  Qed.
  Lemma lock_inv l s : history compiled timeout cap l s -> inv_lock s.
  Proof. apply run_inv; [exact lock_step|]. intros j E; discriminate. Qed.
  Lemma done_step s a s' j r : inv_lock s -> s_jobs s j = JDone r -> step s a = Some s' -> s_jobs s' j = JDone r.
  Proof.
    intros K D H. unfold inv_lock in K. destruct a; cbn [HelperModel.step] in H; unfold send_control, at_proc in H; crack H;
      try solve [repeat match goal with |- context [match ?x with _ => _ end] => destruct x end; exact D];
      (match goal with |- context [upd _ ?i _] => destruct (Nat.eq_dec j i) as [->|N] | |- context [set_job _ ?i _] => destruct (Nat.eq_dec j i) as [->|N] end);
      try congruence; try (specialize (K _ eq_refl); congruence);
      cbn; repeat match goal with |- context [match ?x with _ => _ end] => destruct x end; cbn; rewrite ?upd_neq by exact N; exact D.
  Qed.
  Lemma done_run l' : forall l s s' j r, history compiled timeout cap l s -> s_jobs s j = JDone r -> run s l' = Some s' -> s_jobs s' j = JDone r.
  Proof.
    induction l' as [|a l' IH]; intros l s s' j r H D E; cbn in E; [congruence|]. destruct (step s a) as [s1|] eqn:ST; [|discriminate].
    apply (IH (l ++ [a]) s1); auto; [|eapply done_step; eauto using lock_inv]. unfold history. rewrite run_app. unfold history in H. rewrite H. cbn. rewrite ST. reflexivity.
  Qed.
  Lemma run_ticks n : forall s, exists s', run s (repeat ATick n) = Some s' /\ s_now s' = s_now s + n /\ s_jobs s' = s_jobs s /\ s_chan s' = s_chan s /\ s_flag s' = s_flag s /\ s_lock s' = s_lock s.
  Proof.
    induction n as [|n IH]; intros s; cbn [repeat HelperModel.run].
    - exists s. repeat split; auto.
    - cbn [HelperModel.step]. match goal with |- context [run ?x _] => destruct (IH x) as (s' & R1 & R2 & R3) end. exists s'. split; [exact R1|]. cbn in R2, R3. split; [lia|exact R3].
  Qed.
  Lemma waiting_done s j g id w : s_jobs s j = JWait g id w -> s_flag s = false -> s_lock s = LFree ->
    exists l s' r, Forall (own_step j) l /\ run s l = Some s' /\ s_jobs s' j = JDone r.
  Proof.
    intros J F L. destruct (s_chan s j) as [[r|e]|] eqn:C.
    - exists [ARecv j]. eexists. exists (inl r). split; [constructor; [right; left; reflexivity|constructor]|]. cbn. rewrite J, C. split; [reflexivity|]. cbn. apply upd_eq.
    - exists [ARecv j; ADiscard j]. eexists. exists (inr e). split; [constructor; [right; left; reflexivity|constructor; [unfold own_step; auto|constructor]]|]. cbn. rewrite J, C. cbn. rewrite upd_eq, L. split; [reflexivity|]. cbn. apply upd_eq.
    - destruct (run_ticks (w + timeout) s) as (s1 & R1 & N1 & J1 & C1 & F1 & L1).
      assert (exists s', run s1 [AExpire j; ALate j; ADiscard j] = Some s' /\ s_jobs s' j = JDone (inr ETimeout)) as (s' & R2 & D).
      { cbn. rewrite J1, J, C1, C, N1. destruct (Nat.leb_spec (w + timeout) (s_now s + (w + timeout))); [|lia]. rewrite F1, F. cbn. rewrite upd_eq. cbn. unfold at_proc. cbn.
        destruct (nth_error (s_procs s1) g) as [q|]; cbn; rewrite upd_eq, L1, L; (eexists; split; [reflexivity|]); destruct (s_slot s1) as [g'|]; try destruct (g' =? g); cbn; apply upd_eq. }
      exists (repeat ATick (w + timeout) ++ [AExpire j; ALate j; ADiscard j]), s', (inr ETimeout). split; [|split; [rewrite run_app, R1; exact R2|exact D]].
      apply Forall_app. split; [apply Forall_forall; intros x X; apply repeat_spec in X; left; exact X|]. unfold own_step. repeat (apply Forall_cons; [solve [auto 7]|]). constructor.
  Qed.
End Proof.
