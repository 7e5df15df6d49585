(** C26: the life cycle of a compiler instance. *)
From Verif Require Import LifeModel LifeSpec LifeProof.

(** Once an address or an object file was handed out, and until the caller clears: nothing is translated into the
    module, the optimizer does not run again, and every further object file is the same. *)
Theorem C26_no_add (code : Type) aot (l1 l2 : list (call code)) c s1 r1 s2 r s3 r3 : calls (new_life aot) l1 = (s1, r1) -> do_call s1 c = (s2, r) -> calls s2 l2 = (s3, r3) ->
  finalizes (c, r) -> no_clear (combine l2 r3) ->
  s_runs s3 = s_runs s2 /\
  (forall e, In e (combine l2 r3) -> is_translate (fst e) -> snd e = RErr) /\
  (forall m m' c', aot = true -> r = RObject m -> In (c', RObject m') (combine l2 r3) -> m' = m).
Proof. apply no_add_after. Qed.
Print Assumptions C26_no_add.

(** No two functions of an object file, or of the JIT, have the same name. *)
Theorem C26_names (code : Type) aot (l : list (call code)) s rs : calls (new_life aot) l = (s, rs) ->
  (forall m, In (RObject m) rs -> NoDup (map f_name m)) /\ NoDup (map (fun p => f_name (snd p)) (s_jd s)) /\ NoDup (map f_name (s_module s)).
Proof.
  intros H. destruct (reachable_inv _ _ _ _ _ (inv_new aot) H) as [B I]. split; [|destruct I; auto].
  clear I B. revert s rs H. assert (G : forall (l : list (call code)) s0 B s rs, inv s0 B -> calls s0 l = (s, rs) -> forall m, In (RObject m) rs -> NoDup (map f_name m)); [|intros s rs H; eapply G; [apply inv_new|exact H]].
  clear l. induction l as [|c l IH]; intros s0 B s rs I H m Hin; cbn in H; [injection H as <- <-; destruct Hin|].
  destruct (do_call s0 c) as [s1 r] eqn:E. destruct (calls s1 l) as [s2 r2] eqn:E2. injection H as <- <-.
  destruct (step_inv _ _ _ _ _ I E) as (B1 & I1 & _). destruct Hin as [->|Hin]; [|eapply IH; eauto].
  assert (F : finalizes (c, RObject m)).
  { destruct c as [n c p u b|id a b c d e f g|a b c d e|id rm|cr|j cr| |t]; cbn [do_call] in E; cbn; auto; exfalso; revert E.
    - unfold translate. destruct (s_finalized s0); [discriminate|]. destruct (negb p); [discriminate|]. destruct (find_name _ _); [discriminate|]. destruct (build_function _ _ _). destruct (_ && _); [discriminate|]. destruct b; discriminate.
    - unfold jit_function. destruct (s_aot s0); [discriminate|]. destruct (finalize _ _ _ _) as [? k]. destruct (negb k); [discriminate|]. destruct (commit _ _ _) as [? k2]. destruct (negb k2); [discriminate|].
      destruct (name_of _ _); [|discriminate]. destruct (negb f); [discriminate|]. destruct (find_name _ _); [destruct g|]; discriminate.
    - unfold free_function. destruct (_ && _); [discriminate|]. destruct (find _ _) as [[? ?]|]; [|discriminate]. destruct (negb rm); [discriminate|]. destruct (nth_error _ _); discriminate.
    - unfold clear_ir. destruct cr; discriminate.
    - unfold clear. destruct (negb j); [discriminate|]. destruct (negb cr); discriminate.
    - unfold take_tracker. destruct (rev _); discriminate.
    - unfold drop_tracker. discriminate. }
  destruct (finalizes_finalized _ _ _ _ E F) as [_ O]. rewrite <- (O _ eq_refl). destruct I1; assumption.
Qed.
Print Assumptions C26_names.

(** An address belongs to the code translated under its id, if the caller clears after a failed [jit_function]. *)
Theorem C26_own_code_partial (code : Type) aot (l : list (call code)) s rs k j n c p u b id a1 a2 a3 a4 a5 a6 a7 f : calls (new_life aot) l = (s, rs) -> tidy false (combine l rs) ->
  nth_error (combine l rs) k = Some (Translate n c p u b, RId id) ->
  nth_error (combine l rs) j = Some (JitFunction id a1 a2 a3 a4 a5 a6 a7, RAddr f) -> (k < j)%nat -> f = mkF n id c.
Proof. apply own_code. Qed.
Print Assumptions C26_own_code_partial.

(** Then nothing is used after it was freed, and freeing never panics. *)
Theorem C26_no_dangling_partial (code : Type) aot (l : list (call code)) s rs : calls (new_life aot) l = (s, rs) -> tidy false (combine l rs) ->
  ~ In RUb rs /\ (forall id rm, ~ In (FreeFunction id rm, RPanic) (combine l rs)).
Proof. apply no_ub. Qed.
Print Assumptions C26_no_dangling_partial.

(** Whatever the caller does, only [free_function] can touch a freed function: the cached builtin handles always
    belong to the current module. *)
Theorem C26_handles_current (code : Type) aot (l : list (call code)) s rs c : calls (new_life aot) l = (s, rs) -> In (c, RUb) (combine l rs) -> exists id rm, c = FreeFunction id rm.
Proof. apply ub_only_free. Qed.
Print Assumptions C26_handles_current.

(** Asking for a translated function panics only if it was freed or cleared away in between. *)
Theorem C26_panic_only (code : Type) aot (l1 l2 l3 : list (call code)) n c p u b s rs r2 id a1 a2 a3 a4 a5 a6 a7 rr :
  calls (new_life aot) (l1 ++ Translate n c p u b :: l2 ++ JitFunction id a1 a2 a3 a4 a5 a6 a7 :: l3) = (s, rs) ->
  combine (l1 ++ Translate n c p u b :: l2 ++ JitFunction id a1 a2 a3 a4 a5 a6 a7 :: l3) rs = rr ->
  nth_error rr (length l1) = Some (Translate n c p u b, RId id) ->
  nth_error rr (length l1 + S (length l2)) = Some (JitFunction id a1 a2 a3 a4 a5 a6 a7, r2) ->
  Forall (fun c => is_clear c = false /\ forall id rm, c <> FreeFunction id rm) l2 -> r2 <> RPanic.
Proof. apply panic_only. Qed.
Print Assumptions C26_panic_only.

(** Whatever happened before, a clear that succeeds makes the instance usable: all functions of distinct names are
    translated, and each that is asked for is the one translated (JIT) or all are in the object file (AOT). *)
Theorem C26_usable_after_clear (code : Type) (s : life code) u fs ids : NoDup (map fst fs) ->
  (s_aot s = false -> (forall f, In f ids -> In f (number (s_counter s) fs)) ->
   exists s', calls s (Clear true true :: tr_all u fs ++ map (fun f => jit_one (f_id f)) ids) = (s', ROk :: map RId (seq (s_counter s) (length fs)) ++ map RAddr ids)) /\
  (s_aot s = true ->
   exists s', calls s (Clear true true :: tr_all u fs ++ [WriteObject true true true true true]) = (s', ROk :: map RId (seq (s_counter s) (length fs)) ++ [RObject (number (s_counter s) fs)])).
Proof. intros ND. split; [intros A HI; apply usable; auto|intros A; apply usable_aot; auto]. Qed.
Print Assumptions C26_usable_after_clear.

(** After a successful clear every sequence of calls has the results it would have on a new instance, with function
    ids and trackers counted on. *)
Theorem C26_clear_like_new (code : Type) (s : life code) jd cr s1 l s2 rs : do_call s (Clear jd cr) = (s1, ROk) -> calls (new_life (s_aot s)) l = (s2, rs) ->
  exists s3, calls s1 (map (shift_call (s_counter s) (s_ntr s)) l) = (s3, map (shift_res (s_counter s) (s_ntr s)) rs).
Proof.
  cbn [do_call]. intros H1 H2. rewrite (clear_fresh _ _ _ _ H1), calls_shift, H2. eexists. reflexivity.
Qed.
Print Assumptions C26_clear_like_new.

(** Ids and trackers handed out before the clear: freeing or dropping them changes nothing. *)
Theorem C26_clear_stale (code : Type) (s : life code) jd cr s1 l s2 rs : do_call s (Clear jd cr) = (s1, ROk) ->
  calls s1 (map (shift_call (s_counter s) (s_ntr s)) l) = (s2, rs) ->
  (forall id rm, (id < s_counter s)%nat -> do_call s2 (FreeFunction id rm) = (s2, ROk)) /\ (forall t, (t < s_ntr s)%nat -> do_call s2 (DropTracker t) = (s2, ROk)).
Proof.
  cbn [do_call]. intros H1 H2. rewrite (clear_fresh _ _ _ _ H1), calls_shift in H2. destruct (calls (new_life (s_aot s)) l) as [s0 r0]. injection H2 as <- _.
  split; intros; [apply stale_free|apply stale_drop]; assumption.
Qed.
Print Assumptions C26_clear_stale.

(** Without clearing after a failure (finding F19). Code 65 is translated under name 7 and linked; the IR is
    cleared and code 66 translated under the same name. Linking fails, as the name is still defined in the JIT; asked
    again, the instance hands out 65 for the id of 66. *)
Definition stale_calls : list (call nat) :=
  [Translate 7 65 true true true; jit_one 0; ClearIr true; Translate 7 66 true true true; jit_one 1; jit_one 1].
Theorem C26_stale_code_refuted : exists (l : list (call nat)) s rs k j n c id f,
  calls (new_life false) l = (s, rs) /\ nth_error (combine l rs) k = Some (Translate n c true true true, RId id) /\
  nth_error (combine l rs) j = Some (jit_one id, RAddr f) /\ (k < j)%nat /\ f_code f <> c.
Proof.
  exists stale_calls, (fst (calls (new_life false) stale_calls)), (snd (calls (new_life false) stale_calls)), 3%nat, 5%nat, 7%nat, 66%nat, 1%nat, (mkF 7 0 65).
  split; [apply surjective_pairing|]. vm_compute. split; [reflexivity|]. split; [reflexivity|]. split; [repeat constructor|]. discriminate.
Qed.
Print Assumptions C26_stale_code_refuted.
(** Freed instead of asked again: a function of a module that is gone is used. *)
Theorem C26_dangling_refuted : exists (l : list (call nat)) s rs, calls (new_life false) l = (s, rs) /\ In RUb rs.
Proof.
  exists (firstn 5 stale_calls ++ [FreeFunction 1 true]), (fst (calls (new_life false) (firstn 5 stale_calls ++ [FreeFunction 1 true]))), (snd (calls (new_life false) (firstn 5 stale_calls ++ [FreeFunction 1 true]))).
  split; [apply surjective_pairing|]. vm_compute. do 5 right. left. reflexivity.
Qed.
Print Assumptions C26_dangling_refuted.

(** ** The hypotheses are met. *)
Definition ex_calls : list (call nat) :=
  [Translate 7 65 true true true; Translate 7 66 true true true; Translate 8 66 true true true; jit_one 1; Translate 9 67 true true true; jit_one 0;
   TakeTracker; ClearIr true; Translate 9 67 true true true; jit_one 2; FreeFunction 2 true; DropTracker 0; Clear true true; Translate 7 68 true true true; jit_one 3].
Example C26_ex : snd (calls (new_life false) ex_calls) =
  [RId 0; RErr; RId 1; RAddr (mkF 8 1 66); RErr; RAddr (mkF 7 0 65); RTracker (Some 0); ROk; RId 2; RAddr (mkF 9 2 67); ROk; ROk; ROk; RId 3; RAddr (mkF 7 3 68)].
Proof. vm_compute. reflexivity. Qed.
Example C26_ex_tidy : tidy false (combine ex_calls (snd (calls (new_life false) ex_calls))).
Proof. vm_compute. tauto. Qed.
Example C26_ex_aot : snd (calls (new_life true) [Translate 7 65 true true true; Translate 8 66 true true false; WriteObject true true true true true; Translate 9 1 true false true;
    WriteObject true true true true true; Clear true true; Translate 7 67 true true true; WriteObject true true true true true]) =
  [RId 0; RErr; RObject [mkF 7 0 65; mkF 8 1 66]; RErr; RObject [mkF 7 0 65; mkF 8 1 66]; ROk; RId 2; RObject [mkF 7 2 67]].
Proof. vm_compute. reflexivity. Qed.
Example C26_ex_number : number 4 [(7, 65); (8, 66)] = [mkF 7 4 65; mkF 8 5 66].
Proof. reflexivity. Qed.
