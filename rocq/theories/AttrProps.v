(** C59: the LLVM attributes declared for the builtins against what the builtins do.

    In a run everything the context, the host and the memory answer is arbitrary; [x], [y] are the scalar
    arguments, [w] the words behind the stack pointer, [val] the values computed. *)
From Verif Require Export AttrSpec.
From Verif Require Import AttrProof.
Open Scope Z_scope.

Lemma nth_params ctx b i k a : nth_error (params b) i = Some k -> In a (nth i (param_attrs ctx b) []) -> In k (params b) /\ In a (attrs_of ctx b k).
Proof.
  intros HN HA. split; [exact (nth_error_In _ _ HN)|].
  unfold param_attrs in HA. rewrite (nth_error_nth _ i [] (map_nth_error (attrs_of ctx b) i (params b) HN)) in HA. exact HA.
Qed.

(** Every promise made about the stack pointer is kept by every run ([writeonly] read as in AttrSpec.v). *)
Theorem C59_stack_partial : forall val ctx b x y w t r w' i a,
  exec (body val b x y) w t r w' -> nth_error (params b) i = Some KSp -> In a (nth i (param_attrs ctx b) []) -> sp_promise a t r.
Proof.
  intros val ctx b x y w t r w' i a HX HN HA. apply (nth_params ctx b i KSp a HN) in HA. destruct HA as (HK & HA).
  destruct (sat_exec _ _ _ _ _ _ _ HX (body_stack val b x y HK)) as (HS & _).
  assert (FILL : reads b = false -> (forall t1 k t2, t = t1 ++ ERd k :: t2 -> In (EWr k) t1)
                   /\ (r = true -> forall k, (k < reach b)%nat -> In (EWr k) t)).
  { intros HR. destruct (fills_exec _ _ _ _ _ _ HX [] (body_fills val b x y HK HR)) as (H1 & H2). split.
    - intros t1 k t2 E. destruct (H1 _ _ _ E) as [[] | HI]; exact HI.
    - intros Er k Hk. destruct (H2 Er k Hk) as [[] | HI]; exact HI. }
  cbn [attrs_of] in HA. unfold sp_attrs, size_attrs in HA. unfold reach, writes, reads in *.
  destruct (opcode_io (bop b)) as [[i0 o0]|] eqn:EO.
  - apply in_app_or in HA. destruct HA as [HA | HA].
    { cbn in HA. destruct HA as [<- | [<- | [<- | []]]]; exact Logic.I. }
    destruct HA as [<- | HA].
    { cbn [sp_promise]. unfold within, SIZE_OF_WORD. intros k [HT | HT]; apply HS in HT; lia. }
    destruct i0 as [|i0], o0 as [|o0]; cbn in HA.
    + destruct HA as [<- | []]. intros k [HT | HT]; apply HS in HT; lia.
    + destruct (FILL eq_refl) as (F1 & F2).
      destruct HA as [<- | [<- | [<- | []]]]; [exact Logic.I | exact F1|].
      split; [intros t1 k t2 E _; exact (F1 _ _ _ E)|].
      intros Er k Hk. apply (F2 Er). unfold within, SIZE_OF_WORD in Hk. cbn [Nat.max]. lia.
    + destruct HA as [<- | []]. intros k HT. apply HS in HT. destruct HT as (HT & _). discriminate HT.
    + destruct HA as [<- | []]. exact Logic.I.
  - apply in_app_or in HA. destruct HA as [HA | HA].
    { cbn in HA. destruct HA as [<- | [<- | [<- | []]]]; exact Logic.I. }
    destruct HA as [<- | HA].
    { cbn [sp_promise]. intros k [HT | HT]; apply HS in HT; lia. }
    cbn in HA. destruct HA as [<- | []]. intros k [HT | HT]; apply HS in HT; lia.
Qed.

(** What that means for the caller: behind a read-only stack pointer nothing changes, and a builtin whose stack
    pointer is declared initialized behaves the same whatever the caller left there. *)
Theorem C59_unchanged : forall val ctx b x y w t r w' i,
  exec (body val b x y) w t r w' -> nth_error (params b) i = Some KSp -> In AReadOnly (nth i (param_attrs ctx b) []) -> w' = w.
Proof.
  intros val ctx b x y w t r w' i HX HN HA. apply (no_write _ _ _ _ _ HX).
  exact (C59_stack_partial val ctx b x y w t r w' i _ HX HN HA).
Qed.

Theorem C59_overwritten : forall val ctx b x y w1 w2 t r w1' i n,
  exec (body val b x y) w1 t r w1' -> nth_error (params b) i = Some KSp -> In (AInit n) (nth i (param_attrs ctx b) []) ->
  (forall k, ~ within k n -> w1 k = w2 k) ->
  exists w2', exec (body val b x y) w2 t r w2' /\ (r = true -> forall k, w1' k = w2' k).
Proof.
  intros val ctx b x y w1 w2 t r w1' i n HX HN HA HW. apply (nth_params ctx b i KSp _ HN) in HA. destruct HA as (HK & HA).
  assert (HR : reads b = false /\ n = 32 * Z.of_nat (reach b)).
  { cbn [attrs_of] in HA. unfold sp_attrs, size_attrs in HA. unfold reads, reach. destruct (opcode_io (bop b)) as [[i0 o0]|].
    - destruct i0 as [|i0], o0 as [|o0]; cbn in HA;
        (repeat (destruct HA as [HA | HA]; [first [discriminate HA | injection HA as <-; split; reflexivity]|])); destruct HA.
    - cbn in HA; repeat (destruct HA as [HA | HA]; [try discriminate HA|]); destruct HA. }
  destruct HR as (HR & ->).
  apply (fills_indep _ _ _ _ _ _ HX [] w2 (body_fills val b x y HK HR)); [intros k _ []|].
  intros k Hk. apply HW. unfold within. lia.
Qed.

(** A context declared read-only is not written; a builtin declared not to return does not. *)
Theorem C59_context : forall val ctx b x y w t r w' i a,
  exec (body val b x y) w t r w' -> nth_error (params b) i = Some KEcxRo -> In a (nth i (param_attrs ctx b) []) -> ctx_promise a t.
Proof.
  intros val ctx b x y w t r w' i a HX HN HA. apply (nth_params ctx b i KEcxRo a HN) in HA. destruct HA as (HK & HA).
  destruct a; try exact Logic.I. intros HI.
  exact (proj1 (sat_exec _ _ _ _ _ _ _ HX (body_shared val b x y HK)) _ HI).
Qed.

Theorem C59_noreturn : forall val ctx b x y w t r w',
  exec (body val b x y) w t r w' -> In ANoReturn (fn_attrs ctx b) -> r = false.
Proof.
  intros val ctx b x y w t r w' HX HA. unfold fn_attrs in HA. apply in_app_or in HA. destruct HA as [HA | HA].
  - destruct r; [|reflexivity]. destruct (proj2 (sat_exec _ _ _ _ _ _ _ HX (body_noreturn val b x y HA)) eq_refl).
  - exfalso. cbn in HA. repeat (destruct HA as [HA | HA]; [discriminate HA|]).
    destruct (existsb _ _) in HA; [destruct HA | destruct HA as [HA | []]; discriminate HA].
Qed.

(** The test by sizes in [add_attrs] finds exactly the builtins with a writable context ([EvmContext] is at least
    200 bytes by the offsets asserted in revmc-context/src/lib.rs:133-142). *)
Theorem C59_argmem_declared : forall ctx b, 200 <= ctx -> (In AArgMemOnly (fn_attrs ctx b) <-> ~ In KEcx (params b)).
Proof.
  intros ctx b Hc.
  assert (HR : forall z, 0 <= z <= 128 -> (ctx =? z) = false) by (intros z Hz; apply Z.eqb_neq; lia).
  destruct b; unfold fn_attrs, param_attrs; cbn - [Z.mul Z.eqb]; unfold SIZE_OF_WORD; cbn [Z.of_nat Z.mul Z.eqb];
    repeat rewrite HR by (cbn; lia); rewrite ?Z.eqb_refl; cbn; split; intuition (try discriminate).
Qed.

(** Those without any context touch nothing but the stack words; [C59_argmem_refuted] is about the others. *)
Theorem C59_argmem_partial : forall val ctx b x y w t r w',
  200 <= ctx -> exec (body val b x y) w t r w' -> In AArgMemOnly (fn_attrs ctx b) -> ~ In KEcxRo (params b) -> b <> Panic ->
  forall a, In a (fn_attrs ctx b) -> fn_promise a t r.
Proof.
  intros val ctx b x y w t r w' Hc HX HA HN HP a Ha.
  apply (C59_argmem_declared ctx b Hc) in HA.
  destruct (sat_exec _ _ _ _ _ _ _ HX (body_args val b x y HA HN HP)) as (HS & _).
  destruct a; try exact Logic.I.
  - exact (C59_noreturn val ctx b x y w t r w' HX Ha).
  - intros HI. exact (HS _ HI).
  - intros b0 HI. exact (HS _ HI).
Qed.

(** LOG, CREATE and CALL have a stack pointer of undeclared size: they read the inputs of the instruction only,
    and write nothing. *)
Theorem C59_dynamic : forall val b x y w t r w',
  exec (body val b x y) w t r w' -> In KSpDyn (params b) -> 0 <= x ->
  (forall k, In (ERd k) t -> (k < dyn_inputs b x)%nat) /\ (forall k, ~ In (EWr k) t) /\ w' = w.
Proof.
  intros val b x y w t r w' HX HK Hx. destruct (sat_exec _ _ _ _ _ _ _ HX (body_dyn val b x y HK Hx)) as (HS & _).
  assert (HW : forall k, ~ In (EWr k) t) by (intros k HI; exact (HS _ HI)).
  split; [intros k HI; exact (HS _ HI) | split; [exact HW | exact (no_write _ _ _ _ _ HX HW)]].
Qed.

(** The declared parameters are those of the functions, in order, and the declared size of the stack pointer is
    the size of what the Rust reference covers; a shared reference to words is declared read-only. *)
Theorem C59_signatures : forall ctx b,
  Forall2 fits (params b) (signature b)
  /\ forall i n m, nth_error (signature b) i = Some (RWords n m) ->
       In (ADeref (32 * Z.of_nat n)) (nth i (param_attrs ctx b) []) /\ (m = false -> In AReadOnly (nth i (param_attrs ctx b) [])).
Proof.
  intros ctx b. split.
  - destruct b; cbn; repeat (apply Forall2_cons; [exact Logic.I|]); apply Forall2_nil.
  - intros i n m H. destruct b; cbn in H; (destruct i as [|[|[|[|i]]]]; cbn in H; try discriminate H);
      try (destruct i; discriminate H); injection H as <- <-; (split; [cbn; tauto | intros E; try discriminate E; cbn; tauto]).
Qed.

(** At every call site the words declared behind the stack pointer lie inside the stack of 1024 words, when the
    stack of the frame passes the bounds checks of the instruction. *)
Theorem C59_sites : forall b op d inputs outputs words len,
  In KSp (params b) -> site b = (op, d) -> opcode_io op = Some (inputs, outputs) -> In (ADeref words) (sp_attrs b) ->
  (inputs <= len)%nat -> (len <= 1024)%nat -> (len - inputs + outputs <= 1024)%nat ->
  (d <= len)%nat /\ 32 * Z.of_nat (len - d) + words <= 32 * 1024.
Proof.
  intros b op d inputs outputs words len HK HS HO HA H1 H2 H3.
  destruct b; cbn [params In] in HK; try (exfalso; intuition discriminate); clear HK; cbn in HS; injection HS as <- <-;
    cbn in HO; injection HO as <- <-; cbn in HA;
    repeat (destruct HA as [HA | HA]; [try discriminate HA|]); try (destruct HA; fail); try injection HA as <-; lia.
Qed.

(** ** Runs with one answer to every question, for examples and witnesses. *)
Fixpoint runc (ans : Z) (p : prog) (w : words) : list event * bool * words :=
  match p with
  | Ret => ([], true, w)
  | Exit => ([], false, w)
  | Rd k f => let '(t, r, w') := runc ans (f (w k)) w in (ERd k :: t, r, w')
  | Wr k v p => let '(t, r, w') := runc ans p (set_word w k v) in (EWr k :: t, r, w')
  | Own b f => let '(t, r, w') := runc ans (f ans) w in (EOwn b :: t, r, w')
  | Far b f => let '(t, r, w') := runc ans (f ans) w in (EFar b :: t, r, w')
  | Grow f => let '(t, r, w') := runc ans (f ans) w in (EFar true :: (if ans <=? 1 then [] else [EFree]) ++ t, r, w')
  end.
Lemma runc_exec ans p : forall w, let '(t, r, w') := runc ans p w in exec p w t r w'.
Proof.
  induction p as [| | k f IH | k v p IH | b f IH | b f IH | f IH]; intros w; cbn [runc]; try constructor.
  - specialize (IH (w k) w). destruct (runc ans (f (w k)) w) as [[t r] w']. constructor. exact IH.
  - specialize (IH (set_word w k v)). destruct (runc ans p (set_word w k v)) as [[t r] w']. constructor. exact IH.
  - specialize (IH ans w). destruct (runc ans (f ans) w) as [[t r] w']. econstructor. exact IH.
  - specialize (IH ans w). destruct (runc ans (f ans) w) as [[t r] w']. econstructor. exact IH.
  - specialize (IH ans w). destruct (runc ans (f ans) w) as [[t r] w']. apply (X_grow f ans). exact IH.
Qed.
Definition event_eqb (a b : event) : bool :=
  match a, b with
  | ERd i, ERd j | EWr i, EWr j => Nat.eqb i j
  | EOwn u, EOwn v | EFar u, EFar v => Bool.eqb u v
  | EFree, EFree => true
  | _, _ => false
  end.
Lemma event_eqb_eq a b : event_eqb a b = true -> a = b.
Proof.
  destruct a, b; cbn; intros H; try discriminate H; try (apply Nat.eqb_eq in H; subst; reflexivity);
    try (apply Bool.eqb_prop in H; subst; reflexivity); reflexivity.
Qed.
Definition shows (ans : Z) (b : builtin) (x : Z) (e : event) : bool :=
  let '(t, r, _) := runc ans (body (fun _ => 7) b x 0) (fun _ => 0) in r && existsb (event_eqb e) t.
Lemma shows_exec ans b x e : shows ans b x e = true ->
  exists t w', exec (body (fun _ => 7) b x 0) (fun _ => 0) t true w' /\ In e t.
Proof.
  unfold shows. intros H. pose proof (runc_exec ans (body (fun _ => 7) b x 0) (fun _ => 0)) as HX.
  destruct (runc ans (body (fun _ => 7) b x 0) (fun _ => 0)) as [[t r] w'].
  apply andb_prop in H. destruct H as (-> & H). apply existsb_exists in H. destruct H as (e' & HI & HE).
  apply event_eqb_eq in HE. subst e'. exists t, w'. auto.
Qed.

(** Every builtin not declared [noreturn] can return. *)
Theorem C59_returns : forall ctx b, ~ In ANoReturn (fn_attrs ctx b) ->
  exists val x y w t w', exec (body val b x y) w t true w'.
Proof.
  intros ctx b HN. exists (fun _ => 7), 0, 0, (fun _ => 0).
  assert (HB : In ANoReturn (own_attrs b) \/ snd (fst (runc (match b with Mresize => 1 | _ => 0 end) (body (fun _ => 7) b 0 0) (fun _ => 0))) = true)
    by (destruct b; (right; vm_compute; reflexivity) || (left; left; reflexivity)).
  destruct HB as [HB | HB]; [exfalso; apply HN; apply in_or_app; left; exact HB|].
  pose proof (runc_exec (match b with Mresize => 1 | _ => 0 end) (body (fun _ => 7) b 0 0) (fun _ => 0)) as HX.
  destruct (runc _ _ _) as [[t r] w']. cbn in HB. subst r. exists t, w'. exact HX.
Qed.

(** F26: [argmemonly] is declared for the fourteen builtins with a read-only context, and all of them read memory
    behind pointers loaded from the context (the comment in [add_attrs], ir.rs:79-83, says this is not allowed). *)
Theorem C59_argmem_refuted : exists bs, length bs = 14%nat /\ NoDup bs /\ forall b, In b bs -> forall ctx, 200 <= ctx ->
  In AArgMemOnly (fn_attrs ctx b)
  /\ exists val x y w t w', exec (body val b x y) w t true w' /\ In (EFar false) t.
Proof.
  exists [Origin; CallDataLoad; CallDataLoadC; GasPrice; Coinbase; Timestamp; Number; Difficulty; GasLimit; ChainId; Basefee;
          BlobHash; BlobBaseFee; SlotNum].
  split; [reflexivity|]. split; [repeat (apply NoDup_cons; [cbn; intuition discriminate|]); apply NoDup_nil|].
  intros b HB ctx Hc. split.
  - apply (C59_argmem_declared ctx b Hc).
    repeat (destruct HB as [<- | HB]; [cbn; intuition discriminate|]). destruct HB.
  - exists (fun _ => 7), 0, 0, (fun _ => 0). apply (shows_exec 0).
    repeat (destruct HB as [<- | HB]; [vm_compute; reflexivity|]). destruct HB.
Qed.

(** F27: [nofree] is declared for every builtin; growing the memory frees the old buffer. *)
Theorem C59_nofree_refuted : exists b, forall ctx,
  In ANoFree (fn_attrs ctx b) /\ exists val x y w t w', exec (body val b x y) w t true w' /\ ~ fn_promise ANoFree t true.
Proof.
  exists Mresize. intros ctx. split; [unfold fn_attrs; apply in_or_app; right; left; reflexivity|].
  destruct (shows_exec 2 Mresize 0 EFree eq_refl) as (t & w' & HX & HI).
  exists (fun _ => 7), 0, 0, (fun _ => 0), t, w'. split; [exact HX|]. intros HN. exact (HN HI).
Qed.

(** F28: [sload_c] stores the key in its write-only output word and reads it back ([__revmc_builtin_sload]). *)
Theorem C59_writeonly_refuted : exists b i, forall ctx,
  nth_error (params b) i = Some KSp /\ In AWriteOnly (nth i (param_attrs ctx b) [])
  /\ exists val x y w t w', exec (body val b x y) w t true w' /\ ~ writeonly_literally t.
Proof.
  exists SloadC, 1%nat. intros ctx. split; [reflexivity|]. split; [cbn; tauto|].
  destruct (shows_exec 0 SloadC 5 (ERd 0) eq_refl) as (t & w' & HX & HI).
  exists (fun _ => 7), 5, 0, (fun _ => 0), t, w'. split; [exact HX|]. intros HN. exact (HN 0%nat HI).
Qed.

(** Cases that meet the hypotheses: the attributes of SSTORE and of a load at a constant key, and runs of both. *)
Example C59_ex_attrs :
  nth 1 (param_attrs 216 Sstore) [] = [ANoAlias; ANoCapture; ANoUndef; ADeref 64; AReadOnly]
  /\ nth 1 (param_attrs 216 SloadC) [] = [ANoAlias; ANoCapture; ANoUndef; ADeref 32; AWritable; AWriteOnly; AInit 32]
  /\ fn_attrs 216 Div = [ANoFree; ANoRecurse; ANoSync; ANoUnwind; AArgMemOnly]
  /\ fn_attrs 216 DoReturn = [ANoReturn; ANoFree; ANoRecurse; ANoSync; ANoUnwind].
Proof. repeat split. Qed.
Example C59_ex_runs :
  (exists t w', exec (body (fun _ => 7) Sstore 0 0) (fun _ => 0) t true w' /\ In (ERd 1) t)
  /\ (exists t w', exec (body (fun _ => 7) SloadC 5 0) (fun _ => 0) t true w' /\ In (EWr 0) t)
  /\ (exists t w', exec (body (fun _ => 7) AddMod 0 0) (fun _ => 0) t true w' /\ In (ERd 2) t)
  /\ (exists t w', exec (body (fun _ => 7) Log 4 0) (fun _ => 0) t false w').
Proof.
  split; [apply (shows_exec 0); reflexivity|]. split; [apply (shows_exec 0); reflexivity|]. split; [apply (shows_exec 0); reflexivity|].
  eexists _, _. exact (runc_exec 1 (body (fun _ => 7) Log 4 0) (fun _ => 0)).
Qed.

Print Assumptions C59_stack_partial.
Print Assumptions C59_unchanged.
Print Assumptions C59_overwritten.
Print Assumptions C59_context.
Print Assumptions C59_noreturn.
Print Assumptions C59_argmem_declared.
Print Assumptions C59_argmem_partial.
Print Assumptions C59_dynamic.
Print Assumptions C59_signatures.
Print Assumptions C59_sites.
Print Assumptions C59_returns.
Print Assumptions C59_argmem_refuted.
Print Assumptions C59_nofree_refuted.
Print Assumptions C59_writeonly_refuted.
