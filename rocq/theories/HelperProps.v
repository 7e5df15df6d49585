(** C35, C40, C49: the out-of-process helper and pausing it. *)
From Verif Require Import HelperSpec HelperProof.

Section Props.
  Context {R : Type}.
  Variable compiled : nat -> R.
  Variable timeout cap : nat.
  Notation state := (state R).
  Notation history := (history compiled timeout cap).
  Notation run := (run compiled timeout cap).
  Implicit Types s : state.

  (** C35. The helper in use obeys the flag whenever the backend thread is between commands, whatever the callers,
      workers, reader threads and helpers did before. *)
  Theorem C35_follows_flag l s : history l s -> s_bk s = BIdle -> if s_flag s then helper_stopped s else helper_running s.
  Proof.
    intros H B. pose proof (flag_inv _ _ _ _ _ H) as I. destruct (s_flag s) eqn:F; intros g p S P A; destruct (if_slot _ I _ _ S P B A) as [X Y]; rewrite F in *; auto.
  Qed.
  (** Once every pause has been matched and all commands were delivered, the helper runs. *)
  Theorem C35_balanced_partial l s : history l s -> settled s -> s_dropped s = 0 -> ~ paused_by_callers s -> helper_running s.
  Proof.
    intros H (P1 & P2 & P3 & P4) D N. pose proof (calls_inv _ _ _ _ _ H) as [I1 I2]. pose proof (C35_follows_flag _ _ H P4) as F. destruct (s_flag s) eqn:E; [|exact F].
    exfalso. apply N. unfold paused_by_callers. specialize (I2 D). unfold lastc in I2. rewrite P3, E in I2. cbn in I2. specialize (I2 eq_refl). lia.
  Qed.
  (** While pauses outnumber resumes it is stopped, if all commands were delivered and no pause began while a resume
      was still on its way. *)
  Theorem C35_nested_partial l s : history l s -> no_overlap compiled timeout cap init l -> settled s -> s_dropped s = 0 -> paused_by_callers s -> helper_stopped s.
  Proof.
    intros H O (P1 & P2 & P3 & P4) D N. assert (I : inv_serial s). { eapply serial_inv; [|exact O|exact H]. split; [reflexivity|]. cbn. intros _. split; intros; lia. }
    destruct I as [I1 I2]. destruct (I2 D) as [_ I3]. unfold paused_by_callers in N. pose proof (C35_follows_flag _ _ H P4) as F. unfold lastc in I3. rewrite P1, P3 in I3. cbn in I3. rewrite I3 in F; auto; lia.
  Qed.

  (** C40. A job that finishes with an object got the one compiled for it. *)
  Theorem C40_own_response l s j r : history l s -> s_jobs s j = JDone (inl r) -> r = compiled j.
  Proof. intros H. apply (ir_done _ _ (resp_inv _ _ _ _ _ H)). Qed.
  (** What has been put in a job's channel is its own result or a disconnection, also before it is received. *)
  Theorem C40_channel l s j x : history l s -> s_chan s j = Some x -> x = inl (compiled j) \/ x = inr EDisc.
  Proof. intros H C. apply (ir_chan _ _ (resp_inv _ _ _ _ _ H) _ _ C). Qed.

  (** C49. A job fails with a timeout only through an expiry at which the helper was not paused, no response had been
      delivered, and a full period had passed since it began (or began again) to wait. *)
  Theorem C49_timeout l s j : history l s -> s_jobs s j = JDone (inr ETimeout) ->
    exists l1 l2 s1 g id w, l = l1 ++ AExpire j :: l2 /\ history l1 s1 /\ s_jobs s1 j = JWait g id w /\ s_chan s1 j = None /\ w + timeout <= s_now s1 /\ s_flag s1 = false /\
      exists l0 k s0, l1 = l0 ++ k /\ history l0 s0 /\ s_jobs s0 j = JWait g id w /\ s_now s0 = w.
  Proof. intros H D. destruct (timeout_trace _ _ _ j l s H) as [_ X]. apply X. rewrite D. reflexivity. Qed.
  (** So if the helper is paused whenever the timer of the job expires, the job never times out. *)
  Theorem C49_paused l s j : history l s -> (forall l1 l2 s1, l = l1 ++ AExpire j :: l2 -> history l1 s1 -> s_flag s1 = true) -> s_jobs s j <> JDone (inr ETimeout).
  Proof. intros H P D. destruct (C49_timeout _ _ _ H D) as (l1 & l2 & s1 & g & id & w & E & H1 & _ & _ & _ & F & _). rewrite (P _ _ _ E H1) in F. discriminate. Qed.
  (** A finished job keeps its outcome: late responses are dropped. *)
  Theorem C49_final l l' s s' j r : history l s -> s_jobs s j = JDone r -> run s l' = Some s' -> s_jobs s' j = JDone r.
  Proof. apply done_run. Qed.
  (** A waiting job is not held up: unless the helper is paused, its own thread and the clock suffice to finish it. *)
  Theorem C49_finishes s j g id w : s_jobs s j = JWait g id w -> s_flag s = false -> s_lock s = LFree ->
    exists l s' r, Forall (own_step j) l /\ run s l = Some s' /\ s_jobs s' j = JDone r.
  Proof. apply waiting_done. Qed.
End Props.

(** ** Witnesses and examples. *)
Notation cid := (fun j : nat => j).
Definition mk_helper : list act := [AStart; ADispatch 0; ASpawn 0; ASpawned; AReadFlag; ASetSlot].
Definition stop_now : list act := [APauseAdd; APauseSend 0; AHandle; ABackLock; ABackStop].
Definition check (cap timeout : nat) (l : list act) (f : state nat -> bool) : bool := match run cid timeout cap init l with Some s => f s | None => false end.
Definition settled_b (s : state nat) : bool := match s_pp s, s_pr s, s_queue s, s_bk s with [], 0, [], BIdle => true | _, _, _, _ => false end.
Definition stopped_b (b : bool) (s : state nat) : bool :=
  match s_slot s with Some g => match nth_error (s_procs s) g with Some p => p_alive p && eqb (p_stopped p) b | None => false end | None => false end.
Lemma check_sound cap timeout l f : check cap timeout l f = true -> exists s, history cid timeout cap l s /\ f s = true.
Proof. unfold check, history. destruct (run _ _ _ _ _) as [s|]; [eauto|discriminate]. Qed.
Lemma settled_sound s : settled_b s = true -> settled s.
Proof. unfold settled_b, settled. destruct (s_pp s), (s_pr s), (s_queue s), (s_bk s); try discriminate. auto. Qed.
Lemma stopped_sound s : stopped_b true s = true -> ~ helper_running s.
Proof.
  unfold stopped_b, helper_running. destruct (s_slot s) as [g|] eqn:S; [|discriminate]. destruct (nth_error _ g) as [p|] eqn:P; [|discriminate]. intros H X. apply andb_true_iff in H as [A B]. destruct (X _ _ eq_refl P A) as [Y _].
  rewrite Y in B. discriminate.
Qed.
Lemma running_sound s : stopped_b false s = true -> ~ helper_stopped s.
Proof.
  unfold stopped_b, helper_stopped. destruct (s_slot s) as [g|] eqn:S; [|discriminate]. destruct (nth_error _ g) as [p|] eqn:P; [|discriminate]. intros H X. apply andb_true_iff in H as [A B]. specialize (X _ _ eq_refl P A).
  rewrite X in B. discriminate.
Qed.
Fixpoint no_overlap_b (cap timeout : nat) (s : state nat) (l : list act) : bool :=
  match l with
  | [] => true
  | a :: l' => (match a with APauseAdd => s_pr s =? 0 | _ => true end) && match step cid timeout cap s a with Some s1 => no_overlap_b cap timeout s1 l' | None => true end
  end.
Lemma no_overlap_sound cap timeout l : forall s, no_overlap_b cap timeout s l = true -> no_overlap cid timeout cap s l.
Proof.
  induction l as [|a l IH]; intros s H; [exact Logic.I|]. cbn [no_overlap_b no_overlap] in *. apply andb_true_iff in H as [H1 H2]. split; [intros ->; apply Nat.eqb_eq; exact H1|].
  destruct (step cid timeout cap s a); auto.
Qed.
Ltac use_check H := apply check_sound in H as (s & Hs & H); repeat (apply andb_true_iff in H as [H ?]).

(** The resume command is dropped by a full queue: balanced calls leave the helper stopped. *)
Definition lost_resume : list act := mk_helper ++ stop_now ++ [AOther; AResumeSub; AResumeSend; AHandle].
Theorem C35_lost_resume_refuted : exists cap timeout l s, history cid timeout cap l s /\ settled s /\ ~ paused_by_callers s /\ ~ helper_running s.
Proof.
  exists 1, 10, lost_resume. assert (H : check 1 10 lost_resume (fun s => settled_b s && (s_held s + length (s_pp s) =? 0) && stopped_b true s) = true) by (vm_compute; reflexivity).
  use_check H. exists s. split; [exact Hs|]. split; [apply settled_sound; assumption|]. split; [unfold paused_by_callers; match goal with E : (_ =? _) = true |- _ => apply Nat.eqb_eq in E; lia end|apply stopped_sound; assumption].
Qed.
(** A resume that was overtaken by the next pause: nothing was dropped, a caller has the helper paused, and it runs. *)
Definition late_resume : list act := mk_helper ++ stop_now ++ [AResumeSub] ++ stop_now ++ [AResumeSend; AHandle; ABackLock].
Theorem C35_late_resume_refuted : exists cap timeout l s, history cid timeout cap l s /\ settled s /\ s_dropped s = 0 /\ paused_by_callers s /\ ~ helper_stopped s.
Proof.
  exists 4, 10, late_resume. assert (H : check 4 10 late_resume (fun s => settled_b s && (s_dropped s =? 0) && (0 <? s_held s) && stopped_b false s) = true) by (vm_compute; reflexivity).
  use_check H. exists s. split; [exact Hs|]. split; [apply settled_sound; assumption|]. split; [apply Nat.eqb_eq; assumption|]. split; [unfold paused_by_callers; match goal with E : (_ <? _) = true |- _ => apply Nat.ltb_lt in E; lia end|apply running_sound; assumption].
Qed.
(** A pause issued before the backend was enabled is lost, even with no overlapping calls. *)
Definition early_pause : list act := [APauseAdd; APauseSend 0] ++ mk_helper.
Theorem C35_early_pause_refuted : exists cap timeout l s, history cid timeout cap l s /\ no_overlap cid timeout cap init l /\ settled s /\ paused_by_callers s /\ ~ helper_stopped s.
Proof.
  exists 4, 10, early_pause. assert (H : check 4 10 early_pause (fun s => settled_b s && (0 <? s_held s) && stopped_b false s) = true) by (vm_compute; reflexivity).
  use_check H. exists s. split; [exact Hs|]. split; [apply no_overlap_sound; vm_compute; reflexivity|]. split; [apply settled_sound; assumption|]. split; [unfold paused_by_callers; match goal with E : (_ <? _) = true |- _ => apply Nat.ltb_lt in E; lia end|apply running_sound; assumption].
Qed.
(** A job whose helper ran for less than the timeout can still fail: the clock is not stopped by a pause that ends before
    the period does. *)
Definition short_run : list act := mk_helper ++ [ARegister 0; AWrite 0 true] ++ stop_now ++ repeat ATick 10 ++ [AResumeSub; AResumeSend; AHandle; ABackLock; AExpire 0; ALate 0; ADiscard 0].
Theorem C49_running_time_refuted : exists cap timeout l s, history cid timeout cap l s /\ running_time cid timeout cap init l < timeout /\ s_jobs s 0 = JDone (inr ETimeout).
Proof.
  exists 4, 10, short_run. assert (H : check 4 10 short_run (fun s => match s_jobs s 0 with JDone (inr ETimeout) => true | _ => false end) = true) by (vm_compute; reflexivity).
  use_check H. exists s. split; [exact Hs|]. split; [vm_compute; lia|]. clear Hs. destruct (s_jobs s 0) as [| | | | | | |[|[| | |]]]; try discriminate H. reflexivity.
Qed.

(** Nested pauses from two callers, one resumed: settled, nothing dropped, no overlap, a helper alive and stopped;
    then the second resume: running. *)
Definition nested : list act := mk_helper ++ stop_now ++ [APauseAdd; APauseSend 0; AResumeSub].
Definition balanced : list act := nested ++ [AResumeSub; AResumeSend; AHandle; ABackLock; AReadMsg 0].
Example C35_ex : check 4 10 nested (fun s => settled_b s && (s_dropped s =? 0) && (s_held s =? 1) && stopped_b true s) = true /\ no_overlap cid 10 4 init nested /\
  check 4 10 balanced (fun s => settled_b s && (s_dropped s =? 0) && (s_held s =? 0) && stopped_b false s) = true.
Proof. split; [vm_compute; reflexivity|]. split; [apply no_overlap_sound; vm_compute; reflexivity|vm_compute; reflexivity]. Qed.
(** Two jobs on one helper finishing in the opposite order, a third after a restart. *)
Definition out_of_order : list act := mk_helper ++ [ADispatch 1; AReuse 1; ARegister 1; ARegister 0; AWrite 0 true; AWrite 1 true; AReadMsg 0; AReadMsg 0; AFinish 0 1; AReader 0; ARecv 1; AFinish 0 0; AReader 0; ARecv 0;
  ADie 0; AReaderErr 0; ADispatch 2; ASpawn 2; ASpawned; AReadFlag; ASetSlot; ARegister 2; AWrite 2 true; AReadMsg 1; AFinish 1 0; AReader 1; ARecv 2].
Example C40_ex : check 4 10 out_of_order (fun s => match s_jobs s 0, s_jobs s 1, s_jobs s 2 with JDone (inl 0), JDone (inl 1), JDone (inl 2) => true | _, _, _ => false end) = true.
Proof. vm_compute. reflexivity. Qed.
(** A timeout without a pause, followed by a late response of the (killed) helper's pipe; and a wait renewed because of a pause. *)
Definition slow : list act := mk_helper ++ [ARegister 0; AWrite 0 true; AReadMsg 0] ++ repeat ATick 10 ++ [AExpire 0; AFinish 0 0; ALate 0; AReader 0; ADiscard 0].
Definition renewed : list act := mk_helper ++ [ARegister 0; AWrite 0 true] ++ stop_now ++ repeat ATick 10 ++ [AExpire 0; AResumeSub; AResumeSend; AHandle; ABackLock].
Example C49_ex : check 4 10 slow (fun s => match s_jobs s 0 with JDone (inr ETimeout) => true | _ => false end) = true /\
  check 4 10 renewed (fun s => match s_jobs s 0, s_lock s with JWait 0 0 10, LFree => negb (s_flag s) | _, _ => false end) = true.
Proof. split; vm_compute; reflexivity. Qed.

Print Assumptions C35_follows_flag.
Print Assumptions C35_balanced_partial.
Print Assumptions C35_nested_partial.
Print Assumptions C35_lost_resume_refuted.
Print Assumptions C35_late_resume_refuted.
Print Assumptions C35_early_pause_refuted.
Print Assumptions C40_own_response.
Print Assumptions C40_channel.
Print Assumptions C49_timeout.
Print Assumptions C49_paused.
Print Assumptions C49_final.
Print Assumptions C49_finishes.
Print Assumptions C49_running_time_refuted.
