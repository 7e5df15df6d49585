(** Proofs about the attributes of the builtins. *)
From Verif Require Import AttrSpec.
Open Scope Z_scope.

(** A condition on every access and on returning, for all runs of a body. *)
Fixpoint sat (E : event -> Prop) (R : Prop) (p : prog) : Prop :=
  match p with
  | Ret => R
  | Exit => True
  | Rd k f => E (ERd k) /\ forall v, sat E R (f v)
  | Wr k _ p => E (EWr k) /\ sat E R p
  | Own w f => E (EOwn w) /\ forall v, sat E R (f v)
  | Far w f => E (EFar w) /\ forall v, sat E R (f v)
  | Grow f => E (EFar true) /\ E EFree /\ forall v, sat E R (f v)
  end.

Lemma sat_exec : forall E R p w t r w', exec p w t r w' -> sat E R p -> (forall e, In e t -> E e) /\ (r = true -> R).
Proof.
  induction 1; cbn [sat]; intros HS.
  - split; [intros e [] | auto].
  - split; [intros e [] | discriminate].
  - destruct HS as (HE & HS). specialize (IHexec (HS _)). split; [|tauto]. intros e [<- | He]; [exact HE | apply IHexec, He].
  - destruct HS as (HE & HS). specialize (IHexec HS). split; [|tauto]. intros e [<- | He]; [exact HE | apply IHexec, He].
  - destruct HS as (HE & HS). specialize (IHexec (HS _)). split; [|tauto]. intros e [<- | He]; [exact HE | apply IHexec, He].
  - destruct HS as (HE & HS). specialize (IHexec (HS _)). split; [|tauto]. intros e [<- | He]; [exact HE | apply IHexec, He].
  - destruct HS as (HE & HF & HS). specialize (IHexec (HS _)). split; [|tauto].
    intros e [<- | He]; [exact HE|]. apply in_app_or in He. destruct He as [He | He]; [|apply IHexec, He].
    destruct (a <=? 1); [destruct He|]. destruct He as [<- | []]. exact HF.
Qed.

(** The first [n] words are written before they are read, and all of them before returning. *)
Fixpoint fills (n : nat) (ws : list nat) (p : prog) : Prop :=
  match p with
  | Ret => forall k, (k < n)%nat -> In k ws
  | Exit => True
  | Rd k f => (k < n)%nat /\ In k ws /\ forall v, fills n ws (f v)
  | Wr k _ p => fills n (k :: ws) p
  | Own _ f | Far _ f | Grow f => forall v, fills n ws (f v)
  end.

Lemma cons_app_inv {A} (x y : A) l t1 t2 : x :: l = t1 ++ y :: t2 -> (t1 = [] /\ x = y) \/ exists t1', t1 = x :: t1' /\ l = t1' ++ y :: t2.
Proof. destruct t1 as [|z t1]; cbn; intros H; injection H as -> H; [left; auto | right; exists t1; auto]. Qed.

Lemma fills_exec : forall n p w t r w', exec p w t r w' -> forall ws, fills n ws p ->
  (forall t1 k t2, t = t1 ++ ERd k :: t2 -> In k ws \/ In (EWr k) t1)
  /\ (r = true -> forall k, (k < n)%nat -> In k ws \/ In (EWr k) t).
Proof.
  induction 1; cbn [fills]; intros ws HF.
  - split; [intros [|] ? ? E; discriminate E | intros _ k' Hk; left; auto].
  - split; [intros [|] ? ? E; discriminate E | discriminate].
  - destruct HF as (_ & HI & HF). destruct (IHexec ws (HF _)) as (H1 & H2). split.
    + intros t1 j t2 E. apply cons_app_inv in E. destruct E as [(-> & E) | (t1' & -> & E)].
      * injection E as ->. left. exact HI.
      * destruct (H1 _ _ _ E); [left | right; right]; assumption.
    + intros Hr j Hj. destruct (H2 Hr j Hj); [left | right; right]; assumption.
  - destruct (IHexec (k :: ws) HF) as (H1 & H2). split.
    + intros t1 j t2 E. apply cons_app_inv in E. destruct E as [(-> & E) | (t1' & -> & E)]; [discriminate E|].
      destruct (H1 _ _ _ E) as [[-> | HI] | HI]; [right; left; reflexivity | left; assumption | right; right; assumption].
    + intros Hr j Hj. destruct (H2 Hr j Hj) as [[-> | HI] | HI]; [right; left; reflexivity | left; assumption | right; right; assumption].
  - destruct (IHexec ws (HF _)) as (H1 & H2). split.
    + intros t1 j t2 E. apply cons_app_inv in E. destruct E as [(-> & E) | (t1' & -> & E)]; [discriminate E|].
      destruct (H1 _ _ _ E); [left | right; right]; assumption.
    + intros Hr j Hj. destruct (H2 Hr j Hj); [left | right; right]; assumption.
  - destruct (IHexec ws (HF _)) as (H1 & H2). split.
    + intros t1 j t2 E. apply cons_app_inv in E. destruct E as [(-> & E) | (t1' & -> & E)]; [discriminate E|].
      destruct (H1 _ _ _ E); [left | right; right]; assumption.
    + intros Hr j Hj. destruct (H2 Hr j Hj); [left | right; right]; assumption.
  - destruct (IHexec ws (HF _)) as (H1 & H2). split.
    + intros t1 j t2 E. apply cons_app_inv in E. destruct E as [(-> & E) | (t1' & -> & E)]; [discriminate E|].
      destruct (a <=? 1); cbn [app] in E.
      * destruct (H1 _ _ _ E); [left | right; right]; assumption.
      * apply cons_app_inv in E. destruct E as [(-> & E) | (t1'' & -> & E)]; [discriminate E|].
        destruct (H1 _ _ _ E); [left | right; right; right]; assumption.
    + intros Hr j Hj. destruct (H2 Hr j Hj); [left; assumption | right; right]. apply in_or_app. right. assumption.
Qed.

(** What the caller left in the words that are filled does not matter. *)
Lemma fills_indep : forall n p w1 t r w1', exec p w1 t r w1' -> forall ws w2, fills n ws p ->
  (forall k, (k < n)%nat -> In k ws -> w1 k = w2 k) -> (forall k, (n <= k)%nat -> w1 k = w2 k) ->
  exists w2', exec p w2 t r w2' /\ (r = true -> forall k, w1' k = w2' k).
Proof.
  assert (KEY : forall (n : nat) (w1 w2 : words) k v ws,
    (forall j, (j < n)%nat -> In j ws -> w1 j = w2 j) -> (forall j, (n <= j)%nat -> w1 j = w2 j) ->
    (forall j, (j < n)%nat -> In j (k :: ws) -> set_word w1 k v j = set_word w2 k v j)
    /\ (forall j, (n <= j)%nat -> set_word w1 k v j = set_word w2 k v j)).
  { intros n w1 w2 k v ws HA HB. unfold set_word. split; intros j Hj.
    - intros [-> | HI]; [rewrite Nat.eqb_refl; reflexivity|]. destruct (Nat.eqb j k); auto.
    - destruct (Nat.eqb j k); auto. }
  induction 1; cbn [fills]; intros ws w2 HF HA HB.
  - exists w2. split; [constructor|]. intros _ k. destruct (Nat.lt_ge_cases k n); auto.
  - exists w2. split; [constructor | discriminate].
  - destruct HF as (Hk & HI & HF). destruct (IHexec ws w2 (HF _) HA HB) as (w2' & HX & HR).
    exists w2'. split; [|exact HR]. constructor. rewrite <- (HA k Hk HI). exact HX.
  - destruct (KEY n w w2 k v ws HA HB) as (HA' & HB').
    destruct (IHexec (k :: ws) _ HF HA' HB') as (w2' & HX & HR). exists w2'. split; [constructor; exact HX | exact HR].
  - destruct (IHexec ws w2 (HF _) HA HB) as (w2' & HX & HR). exists w2'. split; [econstructor; exact HX | exact HR].
  - destruct (IHexec ws w2 (HF _) HA HB) as (w2' & HX & HR). exists w2'. split; [econstructor; exact HX | exact HR].
  - destruct (IHexec ws w2 (HF _) HA HB) as (w2' & HX & HR). exists w2'. split; [econstructor; exact HX | exact HR].
Qed.

(** A run that writes no word leaves the words as they were. *)
Lemma no_write : forall p w t r w', exec p w t r w' -> (forall k, ~ In (EWr k) t) -> w' = w.
Proof.
  induction 1; intros HN; try reflexivity.
  - apply IHexec. intros j Hj. apply (HN j). right. exact Hj.
  - exfalso. apply (HN k). left. reflexivity.
  - apply IHexec. intros j Hj. apply (HN j). right. exact Hj.
  - apply IHexec. intros j Hj. apply (HN j). right. exact Hj.
  - apply IHexec. intros j Hj. apply (HN j). right. apply in_or_app. right. exact Hj.
Qed.

(** ** The bodies. *)
Lemma sat_topics (E : event -> Prop) (R : Prop) n : (forall k, (k < n)%nat -> E (ERd k)) -> forall left p, (left <= n)%nat -> sat E R p -> sat E R (topics n left p).
Proof.
  intros HE. induction left as [|left IH]; intros p HL HP; cbn [topics sat]; [exact HP|].
  split; [apply HE; lia | intros _; apply IH; [lia | exact HP]].
Qed.

Ltac walk :=
  unfold do_keccak256, do_calldataload, copy_operation, do_sload, do_return, load_account; unfold host_call, ensure_memory;
  unfold gas, state_gas, non_static, usize, mem_rd, mem_wr, host_ro; unfold fail;
  cbv zeta beta;
  repeat (cbv beta; cbn [sat fills]; match goal with
          | |- _ /\ _ => split
          | |- forall _, _ => intro
          | |- True => exact Logic.I
          | |- context [if ?c then _ else _] => destruct c
          end).

(** The bytes of the stack pointer a builtin may touch, and whether it may write. *)
Definition reach (b : builtin) : nat :=
  match opcode_io (bop b) with Some (i, o) => Nat.max i o | None => O end.
Definition reads (b : builtin) : bool := match opcode_io (bop b) with Some (O, _) | None => false | _ => true end.
Definition writes (b : builtin) : bool := match opcode_io (bop b) with Some (_, O) | None => false | _ => true end.

Lemma body_stack val b x y : In KSp (params b) ->
  sat (fun e => match e with ERd k => (k < reach b)%nat | EWr k => writes b = true /\ (k < reach b)%nat | _ => True end) True (body val b x y).
Proof.
  intros HK. destruct b; cbn [params In] in HK; try (exfalso; intuition discriminate); clear HK; cbn [body]; walk; cbn; auto; lia.
Qed.

Lemma body_fills val b x y : In KSp (params b) -> reads b = false -> fills (reach b) [] (body val b x y).
Proof.
  intros HK HR. destruct b; cbn [params In] in HK; try (exfalso; intuition discriminate); clear HK; cbn in HR; try discriminate HR;
    cbn [body]; walk; cbn in *; auto; lia.
Qed.

Lemma body_shared val b x y : In KEcxRo (params b) ->
  sat (fun e => match e with EOwn true => False | _ => True end) True (body val b x y).
Proof.
  intros HK. destruct b; cbn [params In] in HK; try (exfalso; intuition discriminate); clear HK; cbn [body]; walk; cbn; auto.
Qed.

Lemma body_noreturn val b x y : In ANoReturn (own_attrs b) -> sat (fun _ => True) False (body val b x y).
Proof.
  intros HK. destruct b; cbn [own_attrs In] in HK; try (exfalso; intuition discriminate); clear HK; cbn [body]; walk.
Qed.

Lemma body_args val b x y : ~ In KEcx (params b) -> ~ In KEcxRo (params b) -> b <> Panic ->
  sat (fun e => match e with EOwn _ | EFar _ | EFree => False | _ => True end) True (body val b x y).
Proof.
  intros H1 H2 H3. destruct b; cbn [params In] in H1, H2; try (exfalso; tauto); cbn [body]; walk.
Qed.

Lemma body_dyn val b x y : In KSpDyn (params b) -> 0 <= x ->
  sat (fun e => match e with ERd k => (k < dyn_inputs b x)%nat | EWr _ => False | _ => True end) True (body val b x y).
Proof.
  intros HK Hx. destruct b; cbn [params In] in HK; try (exfalso; intuition discriminate); clear HK; cbn [body dyn_inputs].
  - replace (Z.to_nat (x + 2)) with (Z.to_nat x + 2)%nat by lia. set (n := Z.to_nat x).
    assert (HT : forall p (E : event -> Prop) (R : Prop), (forall k, (k < n)%nat -> E (ERd k)) -> sat E R p -> sat E R (topics n n p))
      by (intros; apply sat_topics; auto).
    unfold ensure_memory, gas, non_static, usize, mem_rd; unfold fail.
    repeat (cbv zeta beta; cbn [sat]; match goal with
          | |- sat _ _ (topics _ _ _) => apply HT; [intros; lia | cbn [sat]]
          | |- _ /\ _ => split
          | |- forall _, _ => intro
          | |- True => exact Logic.I
          | |- (_ < _)%nat => lia
          | |- context [if ?c then _ else _] => destruct c
          end).
  - destruct (x =? 0) eqn:E0; walk; cbn; auto; lia.
  - destruct (x <? 2) eqn:E0; walk; cbn; auto; lia.
Qed.
