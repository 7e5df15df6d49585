(** Claim C38: programs handed out stay valid. *)
From Verif Require Import HoldSpec RuntimeProof RuntimeInv8 HoldProof HoldProof2 RuntimeProps.
Open Scope Z_scope.

(** * Never unmapped: whatever a caller holds stays alive, in every history. *)
Theorem C38_mapped c now pre st en l x o p : legal_start pre st -> hruns c (h_start now pre st en) l x ->
  In (o, p) (m_held (snd x)) -> mapped o (snd x).
Proof. intros S R. apply held_mapped. eapply ginv_hruns; eauto. apply ginv_h_start. exact S. Qed.
Print Assumptions C38_mapped.
(** * JIT code is never overwritten, in any history. *)
Theorem C38_jit c now pre st en l x o p : legal_start pre st -> hruns c (h_start now pre st en) l x ->
  In (o, p) (m_held (snd x)) -> p_kind p = Jit -> code_of o (snd x) = Some (p_func p).
Proof. intros S R. apply held_jit. eapply ginv_hruns; eauto. apply ginv_h_start. exact S. Qed.
Print Assumptions C38_jit.
(** * Code of both kinds stays as it was when handed out as long as nothing is cleared and loading from
    the store works. Missing: histories with clears and with failing loads, where it is false (below). *)
Theorem C38_intact_partial c now pre st en l x o p : legal_start pre st -> hruns c (h_start now pre st en) l x -> Forall hquiet l ->
  In (o, p) (m_held (snd x)) -> code_of o (snd x) = Some (p_func p).
Proof. intros S R Q. apply (held_intact c). eapply calm_hruns; eauto. apply calm_start. exact S. Qed.
Print Assumptions C38_intact_partial.
(** * In any history, what changes the code behind a held reference is the result of an AOT compilation
    of the current generation, written over the file that the held library was loaded from. *)
Theorem C38_only_overwrite c now pre st en l x a x' o p : legal_start pre st -> hruns c (h_start now pre st en) l x ->
  (forall b, a = HAct b -> fair_action b) -> hact c a x = Some x' ->
  In (o, p) (m_held (snd x)) -> In (o, p) (m_held (snd x')) -> code_of o (snd x') <> code_of o (snd x) ->
  exists n r j i rc, a = HAct (BResult n r) /\ nth_error (s_inflight (fst x)) n = Some j /\ j_phase j = Done OAot /\ j_gen j = s_gen (fst x) /\
    aget (j_key j, c_aot_opt c) (m_dir (snd x)) = Some i /\ oget o (m_objs (snd x)) = Some (BLib i, rc).
Proof.
  intros S R F H I I' NE. assert (G : ginv_x x) by (eapply ginv_hruns; eauto; apply ginv_h_start; exact S).
  destruct (only_overwrite c a x x' o p G F H I I' NE) as (n & r & j & i & H1 & H2 & H3 & H4 & H5 & H6). unfold bk in H6.
  destruct (oget o (m_objs (snd x))) as [[b rc]|] eqn:O; [|discriminate]. injection H6 as ->. exists n, r, j, i, rc. repeat split; auto.
Qed.
Print Assumptions C38_only_overwrite.

(** Running a script. *)
Fixpoint hexec (c : config) (l : list haction) (x : state * mem) : option (state * mem) :=
  match l with [] => Some x | a :: l => match hact c a x with Some x => hexec c l x | None => None end end.
Definition hfair (a : haction) : Prop := match a with HAct b => fair_action b | HDrop _ => True end.
Lemma hexec_runs c l : forall x x', Forall hfair l -> hexec c l x = Some x' -> hruns c x l x'.
Proof.
  induction l as [|a l IH]; intros x x' F H; cbn in H; [injection H as <-; constructor|]. apply Forall_cons_iff in F as [F1 F2].
  destruct (hact c a x) as [x1|] eqn:A; [|discriminate]. econstructor; [|exact A|eauto]. intros b ->. exact F1.
Qed.
Definition func_eqb (f g : func) : bool := (if list_eq_dec Z.eq_dec (f_code f) (f_code g) then true else false) && (f_spec f =? f_spec g)
  && match f_job f, f_job g with Some a, Some b => (a =? b)%nat | None, None => true | _, _ => false end.
Definition intact1 (x : state * mem) : bool :=
  match m_held (snd x) with (o, p) :: _ => match code_of o (snd x) with Some f => func_eqb f (p_func p) | None => false end | [] => true end.
Lemma func_eqb_refl f : func_eqb f f = true.
Proof. unfold func_eqb. destruct (list_eq_dec _ _ _); [|congruence]. rewrite Z.eqb_refl. destruct (f_job f); cbn; [apply Nat.eqb_refl|reflexivity]. Qed.
Lemma intact1_false x : intact1 x = false -> exists o p, In (o, p) (m_held (snd x)) /\ code_of o (snd x) <> Some (p_func p).
Proof.
  unfold intact1. destruct (m_held (snd x)) as [|[o p] t]; [discriminate|]. intros H. exists o, p. split; [left; reflexivity|]. intros E. rewrite E, func_eqb_refl in H. discriminate.
Qed.

Definition prepare1 : list action := [ASend (PrepareAot [(k1, code1)]); BCmd ok].
Definition look1 : action := ALookup false k1 code1.
Ltac hfair := repeat (apply Forall_cons; [exact Logic.I || (cbn; reflexivity)|]); apply Forall_nil.
(** A quiet history: compiled ahead of time, looked up twice, evicted, loaded again from the store. Both
    references are still held at the end, beside the new one. *)
Definition quiet_script : list haction :=
  map HAct (prepare1 ++ finish ++ [look1; look1; sweep_at 100] ++ prepare1 ++ [look1]) ++ [HDrop 1].
Example C38_ex : match hexec cfg_idle quiet_script (h_start 0 [] (Some []) true) with
  | Some x => (length (m_held (snd x)) =? 2)%nat && intact1 x && (length (m_objs (snd x)) =? 2)%nat | None => false end = true.
Proof. vm_compute. reflexivity. Qed.
Example C38_ex_quiet : Forall hquiet quiet_script /\ legal_start [] (Some []).
Proof. split; [hfair|]. split; [constructor|]. split; [constructor|intros x []]. Qed.
(** A preloaded artifact. *)
Example C38_ex_start : legal_start [((k1, 2), mkFunc code1 3 None)] (Some [((k2, 2), mkFunc code1 3 None); ((k1, 2), mkFunc code1 3 None)]).
Proof.
  split; [repeat constructor; intros []|]. split.
  - repeat constructor; cbn; [intros [E|[]]; discriminate|tauto].
  - intros x [<-|[]]. right. left. reflexivity.
Qed.

(** * Refuted with a clear (finding F8). Three compilations of one key: the first is made stale by a clear,
    and its result forgets the second, so a third is dispatched. The second is stored, loaded and handed out; the
    third is then written over the same file in place. Every file operation succeeds. *)
Definition overwrite_script : list haction :=
  map HAct (prepare1 ++ [ASend ClearResident; BCmd ok] ++ prepare1 ++ finish ++ prepare1 ++ finish ++ [look1] ++ finish).
Theorem C38_overwritten_refuted : exists c l x o p, hruns c (h_start 0 [] (Some []) true) l x /\ In (o, p) (m_held (snd x)) /\ code_of o (snd x) <> Some (p_func p).
Proof.
  assert (H : match hexec cfg overwrite_script (h_start 0 [] (Some []) true) with Some x => negb (intact1 x) | None => false end = true) by (vm_compute; reflexivity).
  destruct (hexec cfg overwrite_script (h_start 0 [] (Some []) true)) as [x|] eqn:E; [|discriminate]. apply negb_true_iff in H. apply intact1_false in H as (o & p & I & NE).
  exists cfg, overwrite_script, x, o, p. split; [|auto]. apply hexec_runs; [hfair|exact E].
Qed.
Print Assumptions C38_overwritten_refuted.
(** * Refuted without clears when loading fails once: the artifact is in the store, and a copy of it in use, but
    the failed load leads to a recompilation. Its write fails half-way and leaves the mapped file truncated. *)
Definition bad_load : oracle := mkOracle 5 (fun _ => false).
Definition bad_write : oracle := mkOracle 5 (fun n => (n =? 3)%nat).
Definition truncate_script : list haction :=
  map HAct (prepare1 ++ finish ++ [look1; sweep_at 100; ASend (PrepareAot [(k1, code1)]); BCmd bad_load; WStart 0; WFinish 0 true; BResult 0 bad_write]).
Theorem C38_truncated_refuted : exists c l x o p, hruns c (h_start 0 [] (Some []) true) l x /\
  (forall y, In (HAct (ASend y)) l -> any_clear y = false) /\ In (o, p) (m_held (snd x)) /\ code_of o (snd x) = None.
Proof.
  assert (H : match hexec cfg_idle truncate_script (h_start 0 [] (Some []) true) with Some x => match m_held (snd x) with (o, _) :: _ => match code_of o (snd x) with None => true | _ => false end | [] => false end | None => false end = true) by (vm_compute; reflexivity).
  destruct (hexec cfg_idle truncate_script (h_start 0 [] (Some []) true)) as [x|] eqn:E; [|discriminate]. destruct (m_held (snd x)) as [|[o p] t] eqn:HE; [discriminate|].
  exists cfg_idle, truncate_script, x, o, p. split; [apply hexec_runs; [hfair|exact E]|]. split.
  - intros y I. clear -I. cbn in I. repeat destruct I as [I|I]; try discriminate; try (injection I as <-; reflexivity). tauto.
  - rewrite HE. split; [left; reflexivity|]. destruct (code_of o (snd x)); [discriminate|reflexivity].
Qed.
Print Assumptions C38_truncated_refuted.
