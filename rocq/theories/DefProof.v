(** Invariants of the shared JIT over all interleavings. *)
From Verif Require Export DefSpec.
From Coq Require Import DecimalNat.

Lemma mem_spec : forall x l, mem x l = true <-> In x l.
Proof.
  intros x l. unfold mem. rewrite existsb_exists. split.
  - intros (y & H & E). apply Nat.eqb_eq in E. subst. exact H.
  - intros H. exists x. split; [exact H | apply Nat.eqb_refl].
Qed.
Lemma mem_no : forall x l, mem x l = false <-> ~ In x l.
Proof. intros x l. rewrite <- mem_spec. destruct (mem x l); split; intros H; try reflexivity; try discriminate; try (intros E; discriminate). exfalso; apply H; reflexivity. Qed.

Lemma mark_spec : forall syms marked new m, mark marked syms = (new, m) ->
  (forall n, In n m <-> In n marked \/ In n (map fst syms))
  /\ NoDup (map fst new) /\ (forall n, In n (map fst new) <-> In n (map fst syms) /\ ~ In n marked)
  /\ (forall s, In s new -> In s syms).
Proof.
  induction syms as [|[n a] l IH]; intros marked new m H; cbn [mark] in H.
  - injection H as <- <-. cbn. split; [tauto|]. split; [constructor|]. split; tauto.
  - destruct (mem n marked) eqn:E.
    + apply mem_spec in E. destruct (IH _ _ _ H) as (A & B & C & D). cbn [map fst In].
      split; [|split; [exact B|split]].
      * intros k. rewrite A. split; [tauto|]. intros [K | [<- | K]]; [left; exact K | left; exact E | right; exact K].
      * intros k. rewrite C. split; [tauto|]. intros [[<- | K] N]; [contradiction | tauto].
      * intros s K. right. apply D. exact K.
    + apply mem_no in E. destruct (mark (n :: marked) l) as [new' m'] eqn:EM. injection H as <- <-.
      destruct (IH _ _ _ EM) as (A & B & C & D). cbn [map fst In].
      split; [|split; [|split]].
      * intros k. rewrite A. cbn [In]. tauto.
      * constructor; [|exact B]. rewrite C. cbn [In]. tauto.
      * intros k. rewrite C. cbn [In]. split.
        -- intros [<- | [K N]]; [tauto | split; [right; exact K | tauto]].
        -- intros [[<- | K] N]; [left; reflexivity|]. destruct (Nat.eq_dec n k) as [<- | Ne]; [left; reflexivity|].
           right. split; [exact K | intros [F | F]; [exact (Ne F) | exact (N F)]].
      * intros s [<- | K]; [left; reflexivity | right; apply D; exact K].
Qed.

Definition pend (s : sys) (t : nat) : list name := match s_t s t with Defining new _ => map fst new | _ => [] end.
Definition dnames (s : sys) : list name := map fst (g_dylib (s_g s)).
Definition wants (s : sys) (t : nat) : list name :=
  match s_t s t with Defining _ syms | Linking syms => map fst syms | Idle => [] end.

Record inv (s : sys) : Prop := {
  i_nodup : NoDup (dnames s);
  i_marked : forall n, In n (g_marked (s_g s)) <-> In n (dnames s) \/ In n (s_failed s) \/ exists t, In n (pend s t);
  i_pend_nodup : forall t, NoDup (pend s t);
  i_pend : forall t n, In n (pend s t) -> ~ In n (dnames s) /\ ~ In n (s_failed s) /\ forall u, u <> t -> ~ In n (pend s u);
  i_failed : forall n, In n (s_failed s) -> ~ In n (dnames s);
  i_wants : forall t n, In n (wants s t) -> In n (g_marked (s_g s)) }.

Lemma at_same : forall t p ts, at_ t p ts t = p.
Proof. intros. unfold at_. rewrite Nat.eqb_refl. reflexivity. Qed.
Lemma at_other : forall t p ts u, u <> t -> at_ t p ts u = ts u.
Proof. intros. unfold at_. destruct (Nat.eqb_spec u t); [contradiction | reflexivity]. Qed.

(** Steps that only move a thread which has nothing to define. *)
Lemma inv_move : forall s t p links, inv s -> pend s t = [] ->
  match p with Defining _ _ => False | Linking syms => forall n, In n (map fst syms) -> In n (g_marked (s_g s)) | Idle => True end ->
  inv (mkS (s_g s) (at_ t p (s_t s)) (s_failed s) links).
Proof.
  intros s t p links [A B C D E F] HP Hp.
  assert (P : forall u, pend (mkS (s_g s) (at_ t p (s_t s)) (s_failed s) links) u = pend s u).
  { intros u. unfold pend at 1. cbn [s_t]. destruct (Nat.eq_dec u t) as [-> | N].
    - rewrite at_same. rewrite HP. destruct p; [reflexivity | contradiction | reflexivity].
    - rewrite at_other by exact N. reflexivity. }
  split.
  - exact A.
  - intros n. cbn [s_g s_failed]. rewrite B. split; intros [H | [H | [u H]]]; auto; right; right; exists u; [rewrite P | rewrite P in H]; exact H.
  - intros u. rewrite P. apply C.
  - intros u n H. rewrite P in H. destruct (D u n H) as (D1 & D2 & D3). split; [exact D1|]. split; [exact D2|].
    intros v Hv. rewrite P. apply D3. exact Hv.
  - exact E.
  - intros u n. unfold wants. cbn [s_t s_g]. destruct (Nat.eq_dec u t) as [-> | N].
    + rewrite at_same. destruct p; [intros [] | contradiction | apply Hp].
    + rewrite at_other by exact N. apply F.
Qed.

Lemma define_ok : forall d new, (forall n, In n (map fst new) -> ~ In n (map fst d)) -> define d new = Some (d ++ new).
Proof.
  intros d new H. unfold define. destruct (existsb _ new) eqn:E; [|reflexivity].
  apply existsb_exists in E. destruct E as (x & Hx & Hm). apply mem_spec in Hm.
  exfalso. apply (H (fst x)); [apply in_map; exact Hx | exact Hm].
Qed.

Lemma NoDup_app_2 : forall (A : Type) (l m : list A), NoDup l -> NoDup m -> (forall x, In x m -> ~ In x l) -> NoDup (l ++ m).
Proof.
  intros A l m Hl Hm HD. induction l as [|x l IH]; [exact Hm|]. inversion Hl; subst. cbn. constructor.
  - rewrite in_app_iff. intros [K | K]; [contradiction|]. apply (HD x K). left; reflexivity.
  - apply IH; [assumption|]. intros y Hy Hl'. apply (HD y Hy). right; exact Hl'.
Qed.

Lemma inv_start : forall s t syms new m, inv s -> s_t s t = Idle -> mark (g_marked (s_g s)) syms = (new, m) ->
  inv (mkS (mkG m (g_dylib (s_g s)) (g_next (s_g s)) (g_dylibs (s_g s))) (at_ t (Defining new syms) (s_t s)) (s_failed s) (s_links s)).
Proof.
  intros s t syms new m [A B C D E F] HI HM. destruct (mark_spec _ _ _ _ HM) as (M1 & M2 & M3 & M4).
  set (s' := mkS _ _ _ _).
  assert (Pt : pend s' t = map fst new) by (unfold pend, s'; cbn [s_t]; rewrite at_same; reflexivity).
  assert (Pu : forall u, u <> t -> pend s' u = pend s u) by (intros u N; unfold pend, s'; cbn [s_t]; rewrite at_other by exact N; reflexivity).
  assert (P0 : pend s t = []) by (unfold pend; rewrite HI; reflexivity).
  split.
  - exact A.
  - intros n. cbn [s_g g_marked s']. rewrite M1, B. split.
    + intros [[H | [H | [u H]]] | H]; auto.
      * right; right. exists u. rewrite Pu; [exact H|]. intros ->. rewrite P0 in H. destruct H.
      * destruct (in_dec Nat.eq_dec n (g_marked (s_g s))) as [Y | N].
        -- apply B in Y. destruct Y as [Y | [Y | [u Y]]]; auto. right; right. exists u. rewrite Pu; [exact Y|]. intros ->. rewrite P0 in Y. destruct Y.
        -- right; right. exists t. rewrite Pt. apply M3. split; assumption.
    + intros [H | [H | [u H]]]; auto. destruct (Nat.eq_dec u t) as [-> | N].
      * rewrite Pt in H. apply M3 in H. right. apply H.
      * rewrite Pu in H by exact N. left; right; right. exists u. exact H.
  - intros u. destruct (Nat.eq_dec u t) as [-> | N]; [rewrite Pt; exact M2 | rewrite Pu by exact N; apply C].
  - intros u n H. change (dnames s') with (dnames s). cbn [s_failed s'].
    destruct (Nat.eq_dec u t) as [-> | N].
    + rewrite Pt in H. apply M3 in H. destruct H as [H1 H2].
      assert (~ (In n (dnames s) \/ In n (s_failed s) \/ exists t, In n (pend s t))) as K by (rewrite <- B; exact H2).
      split; [tauto|]. split; [tauto|]. intros v Hv. rewrite Pu by exact Hv. intros Q. apply K. right; right. exists v; exact Q.
    + rewrite Pu in H by exact N. destruct (D u n H) as (D1 & D2 & D3). split; [exact D1|]. split; [exact D2|].
      intros v Hv. destruct (Nat.eq_dec v t) as [-> | Nv].
      * rewrite Pt. intros Q. apply M3 in Q. apply (proj2 Q). apply B. right; right. exists u; exact H.
      * rewrite Pu by exact Nv. apply D3. exact Hv.
  - exact E.
  - intros u n H. cbn [s_g g_marked s']. rewrite M1. unfold wants, s' in H. cbn [s_t] in H.
    destruct (Nat.eq_dec u t) as [-> | N].
    + rewrite at_same in H. right; exact H.
    + rewrite at_other in H by exact N. left. apply (F u n). exact H.
Qed.

Lemma inv_define : forall s t new syms, inv s -> s_t s t = Defining new syms ->
  inv (mkS (mkG (g_marked (s_g s)) (g_dylib (s_g s) ++ new) (g_next (s_g s)) (g_dylibs (s_g s))) (at_ t (Linking syms) (s_t s)) (s_failed s) (s_links s))
  /\ inv (mkS (s_g s) (at_ t (Linking syms) (s_t s)) (map fst new ++ s_failed s) (s_links s)).
Proof.
  intros s t new syms [A B C D E F] HI.
  assert (P0 : pend s t = map fst new) by (unfold pend; rewrite HI; reflexivity).
  assert (W : forall n, In n (map fst syms) -> In n (g_marked (s_g s))) by (intros n H; apply (F t n); unfold wants; rewrite HI; exact H).
  split.
  - set (s' := mkS _ _ _ _).
    assert (Pt : pend s' t = []) by (unfold pend, s'; cbn [s_t]; rewrite at_same; reflexivity).
    assert (Pu : forall u, u <> t -> pend s' u = pend s u) by (intros u N; unfold pend, s'; cbn [s_t]; rewrite at_other by exact N; reflexivity).
    assert (DN : dnames s' = dnames s ++ map fst new) by (unfold dnames, s'; cbn [s_g g_dylib]; rewrite map_app; reflexivity).
    split.
    + rewrite DN. apply NoDup_app_2; [exact A | rewrite <- P0; apply C|]. intros n H. rewrite <- P0 in H. apply (D t n H).
    + intros n. change (g_marked (s_g s')) with (g_marked (s_g s)). rewrite B, DN, in_app_iff, <- P0. cbn [s_failed s']. split.
      * intros [H | [H | [u H]]]; auto. destruct (Nat.eq_dec u t) as [-> | N]; [auto|]. right; right. exists u. rewrite Pu by exact N. exact H.
      * intros [[H | H] | [H | [u H]]]; auto; [right; right; exists t; exact H|].
        destruct (Nat.eq_dec u t) as [-> | N]; [rewrite Pt in H; destruct H|]. right; right. exists u. rewrite Pu in H by exact N. exact H.
    + intros u. destruct (Nat.eq_dec u t) as [-> | N]; [rewrite Pt; constructor | rewrite Pu by exact N; apply C].
    + intros u n H. destruct (Nat.eq_dec u t) as [-> | N]; [rewrite Pt in H; destruct H|]. rewrite Pu in H by exact N.
      destruct (D u n H) as (D1 & D2 & D3). rewrite DN, in_app_iff, <- P0. split; [intros [K | K]; [exact (D1 K)|]|].
      { apply (D3 t); [intros Q; apply N; symmetry; exact Q | exact K]. }
      split; [exact D2|]. intros v Hv. destruct (Nat.eq_dec v t) as [-> | Nv]; [rewrite Pt; intros []|]. rewrite Pu by exact Nv. apply D3; exact Hv.
    + intros n H. cbn [s_failed s'] in H. rewrite DN, in_app_iff, <- P0. intros [K | K]; [exact (E n H K)|]. exact (proj1 (proj2 (D t n K)) H).
    + intros u n H. change (g_marked (s_g s')) with (g_marked (s_g s)). unfold wants, s' in H. cbn [s_t] in H. destruct (Nat.eq_dec u t) as [-> | N].
      * rewrite at_same in H. apply W; exact H.
      * rewrite at_other in H by exact N. apply (F u n). exact H.
  - set (s' := mkS _ _ _ _).
    assert (Pt : pend s' t = []) by (unfold pend, s'; cbn [s_t]; rewrite at_same; reflexivity).
    assert (Pu : forall u, u <> t -> pend s' u = pend s u) by (intros u N; unfold pend, s'; cbn [s_t]; rewrite at_other by exact N; reflexivity).
    split.
    + exact A.
    + intros n. change (g_marked (s_g s')) with (g_marked (s_g s)). change (dnames s') with (dnames s). cbn [s_failed s'].
      rewrite B, in_app_iff, <- P0. split.
      * intros [H | [H | [u H]]]; auto. destruct (Nat.eq_dec u t) as [-> | N]; [auto|]. right; right. exists u. rewrite Pu by exact N. exact H.
      * intros [H | [[H | H] | [u H]]]; auto; [right; right; exists t; exact H|].
        destruct (Nat.eq_dec u t) as [-> | N]; [rewrite Pt in H; destruct H|]. right; right. exists u. rewrite Pu in H by exact N. exact H.
    + intros u. destruct (Nat.eq_dec u t) as [-> | N]; [rewrite Pt; constructor | rewrite Pu by exact N; apply C].
    + intros u n H. destruct (Nat.eq_dec u t) as [-> | N]; [rewrite Pt in H; destruct H|]. rewrite Pu in H by exact N.
      destruct (D u n H) as (D1 & D2 & D3). change (dnames s') with (dnames s). cbn [s_failed s']. split; [exact D1|].
      split; [rewrite in_app_iff, <- P0; intros [K | K]; [|exact (D2 K)]|].
      { apply (D3 t); [intros Q; apply N; symmetry; exact Q | exact K]. }
      intros v Hv. destruct (Nat.eq_dec v t) as [-> | Nv]; [rewrite Pt; intros []|]. rewrite Pu by exact Nv. apply D3; exact Hv.
    + intros n H. cbn [s_failed s'] in H. rewrite in_app_iff, <- P0 in H. change (dnames s') with (dnames s). destruct H as [H | H]; [apply (D t n H) | apply E; exact H].
    + intros u n H. change (g_marked (s_g s')) with (g_marked (s_g s)). unfold wants, s' in H. cbn [s_t] in H. destruct (Nat.eq_dec u t) as [-> | N].
      * rewrite at_same in H. apply W; exact H.
      * rewrite at_other in H by exact N. apply (F u n). exact H.
Qed.

(** What a [Define] does, in a reachable state. *)
Lemma define_step : forall s t ok new syms, inv s -> s_t s t = Defining new syms ->
  run1 s (Define t ok) =
    if ok || match new with [] => true | _ => false end
    then mkS (mkG (g_marked (s_g s)) (g_dylib (s_g s) ++ new) (g_next (s_g s)) (g_dylibs (s_g s))) (at_ t (Linking syms) (s_t s)) (s_failed s) (s_links s)
    else mkS (s_g s) (at_ t (Linking syms) (s_t s)) (map fst new ++ s_failed s) (s_links s).
Proof.
  intros s t ok new syms HI HT. cbn [run1]. rewrite HT. destruct new as [|x new].
  - rewrite orb_true_r, app_nil_r. destruct s as [[] ? ? ?]. reflexivity.
  - rewrite orb_false_r. destruct ok; [|reflexivity]. rewrite define_ok; [reflexivity|].
    intros n H. apply (i_pend s HI t n). unfold pend. rewrite HT. exact H.
Qed.

Lemma inv_step : forall s e, inv s -> inv (run1 s e).
Proof.
  intros s e HI. destruct e as [t syms | t ok | t | t].
  - cbn [run1]. destruct (s_t s t) eqn:ET; try exact HI. destruct syms as [|x syms].
    + apply inv_move; [exact HI | unfold pend; rewrite ET; reflexivity | intros n []].
    + destruct (mark (g_marked (s_g s)) (x :: syms)) as [new m] eqn:EM. apply inv_start; assumption.
  - destruct (s_t s t) as [|new syms|syms] eqn:ET.
    + cbn [run1]. rewrite ET. exact HI.
    + rewrite (define_step _ _ _ _ _ HI ET). destruct (inv_define _ _ _ _ HI ET) as [I1 I2]. destruct (ok || _); assumption.
    + cbn [run1]. rewrite ET. exact HI.
  - cbn [run1]. destruct (s_t s t) eqn:ET; try exact HI.
    apply inv_move; [exact HI | unfold pend; rewrite ET; reflexivity | exact Logic.I].
  - cbn [run1]. destruct HI as [A B C D E F]. split; assumption.
Qed.
Lemma inv_run : forall l s, inv s -> inv (run l s).
Proof. induction l as [|e l IH]; intros s H; [exact H|]. apply IH. apply inv_step. exact H. Qed.
Lemma inv_init : inv s_init.
Proof.
  split.
  - constructor.
  - intros n. split; [intros [] | intros [[] | [[] | [t []]]]].
  - intros t. constructor.
  - intros t n [].
  - intros n [].
  - intros t n [].
Qed.
Lemma inv_reach : forall l, inv (run l s_init).
Proof. intros l. apply inv_run. apply inv_init. Qed.

(** Definitions and failures are for ever. *)
Lemma step_dylib : forall s e, inv s -> exists more, g_dylib (s_g (run1 s e)) = g_dylib (s_g s) ++ more.
Proof.
  intros s e HI. destruct e as [t syms | t ok | t | t].
  - cbn [run1]. destruct (s_t s t); try (exists []; rewrite app_nil_r; reflexivity). destruct syms; [exists []; rewrite app_nil_r; reflexivity|].
    destruct (mark _ _). exists []; rewrite app_nil_r; reflexivity.
  - destruct (s_t s t) as [|new syms|syms] eqn:ET; try (cbn [run1]; rewrite ET; exists []; rewrite app_nil_r; reflexivity).
    rewrite (define_step _ _ _ _ _ HI ET). destruct (ok || _); [exists new; reflexivity | exists []; rewrite app_nil_r; reflexivity].
  - cbn [run1]. destruct (s_t s t); exists []; rewrite app_nil_r; reflexivity.
  - exists []; rewrite app_nil_r; reflexivity.
Qed.
Lemma run_dylib : forall l s, inv s -> exists more, g_dylib (s_g (run l s)) = g_dylib (s_g s) ++ more.
Proof.
  induction l as [|e l IH]; intros s H; [exists []; rewrite app_nil_r; reflexivity|].
  destruct (step_dylib s e H) as [m1 E1]. destruct (IH (run1 s e) (inv_step s e H)) as [m2 E2].
  exists (m1 ++ m2). change (run (e :: l) s) with (run l (run1 s e)). rewrite E2, E1, app_assoc. reflexivity.
Qed.
Lemma step_failed : forall s e, exists more, s_failed (run1 s e) = more ++ s_failed s.
Proof.
  intros s e. destruct e as [t syms | t ok | t | t]; cbn [run1].
  - destruct (s_t s t); try (exists []; reflexivity). destruct syms; [exists []; reflexivity|]. destruct (mark _ _). exists []; reflexivity.
  - destruct (s_t s t) as [|new syms|syms]; try (exists []; reflexivity). destruct new as [|x new]; [exists []; reflexivity|].
    destruct (if ok then _ else _); [exists []; reflexivity | exists (map fst (x :: new)); reflexivity].
  - destruct (s_t s t); exists []; reflexivity.
  - exists []; reflexivity.
Qed.
Lemma run_failed : forall l s n, In n (s_failed s) -> In n (s_failed (run l s)).
Proof.
  induction l as [|e l IH]; intros s n H; [exact H|]. apply (IH (run1 s e)). destruct (step_failed s e) as [m ->]. apply in_or_app. right; exact H.
Qed.
Lemma failed_why : forall l s n, inv s -> In n (s_failed (run l s)) -> In n (s_failed s) \/ exists t, In (Define t false) l.
Proof.
  induction l as [|e l IH]; intros s n HI H; [left; exact H|].
  destruct (IH (run1 s e) n (inv_step s e HI) H) as [K | [t K]]; [|right; exists t; right; exact K].
  destruct e as [t syms | t ok | t | t]; cbn [run1] in K; [| |destruct (s_t s t); left; exact K | left; exact K].
  - left. destruct (s_t s t); try exact K. destruct syms; [exact K|]. destruct (mark _ _). exact K.
  - destruct (s_t s t) as [|new syms|syms] eqn:ET; try (left; exact K).
    change (In n (s_failed (run1 s (Define t ok)))) in H || idtac.
    destruct ok; [|right; exists t; left; reflexivity]. left.
    destruct new as [|x new]; [exact K|]. rewrite define_ok in K; [exact K|].
    intros k Hk. apply (i_pend s HI t k). unfold pend. rewrite ET. exact Hk.
Qed.

(** What is in the JITDylib, and what is about to be, has been asked for. *)
Definition backed (P : symbol -> Prop) (s : sys) : Prop :=
  (forall x, In x (g_dylib (s_g s)) -> P x) /\ forall t new syms, s_t s t = Defining new syms -> forall x, In x new -> P x.
Lemma backed_run : forall P l s, inv s -> backed P s -> (forall t syms x, In (Start t syms) l -> In x syms -> P x) -> backed P (run l s).
Proof.
  intros P. induction l as [|e l IH]; intros s HI HB HL; [exact HB|].
  apply (IH (run1 s e)); [apply inv_step; exact HI | | intros t syms x Ht Hx; apply (HL t syms x); [right; exact Ht | exact Hx]].
  destruct HB as [B1 B2]. destruct e as [t syms | t ok | t | t].
  - cbn [run1]. destruct (s_t s t) eqn:ET; try (split; assumption). destruct syms as [|y syms].
    + split; [exact B1|]. cbn [s_t]. intros u new sy Hu. destruct (Nat.eq_dec u t) as [-> | N]; [rewrite at_same in Hu; discriminate|].
      rewrite at_other in Hu by exact N. exact (B2 u new sy Hu).
    + destruct (mark (g_marked (s_g s)) (y :: syms)) as [new m] eqn:EM. split; [exact B1|]. cbn [s_t]. intros u new' sy Hu x Hx.
      destruct (Nat.eq_dec u t) as [-> | N].
      * rewrite at_same in Hu. injection Hu as <- <-. destruct (mark_spec _ _ _ _ EM) as (_ & _ & _ & M).
        apply (HL t (y :: syms) x); [left; reflexivity | apply M; exact Hx].
      * rewrite at_other in Hu by exact N. exact (B2 u new' sy Hu x Hx).
  - destruct (s_t s t) as [|new syms|syms] eqn:ET; try (cbn [run1]; rewrite ET; split; assumption).
    rewrite (define_step _ _ _ _ _ HI ET).
    assert (K : forall u new' sy, at_ t (Linking syms) (s_t s) u = Defining new' sy -> forall x, In x new' -> P x).
    { intros u new' sy Hu. destruct (Nat.eq_dec u t) as [-> | N]; [rewrite at_same in Hu; discriminate|].
      rewrite at_other in Hu by exact N. exact (B2 u new' sy Hu). }
    destruct (ok || _); (split; [|exact K]); cbn [s_g g_dylib]; [|exact B1].
    intros x Hx. apply in_app_or in Hx. destruct Hx as [Hx | Hx]; [apply B1; exact Hx | exact (B2 t new syms ET x Hx)].
  - cbn [run1]. destruct (s_t s t) eqn:ET; try (split; assumption). split; [exact B1|]. cbn [s_t]. intros u new' sy Hu.
    destruct (Nat.eq_dec u t) as [-> | N]; [rewrite at_same in Hu; discriminate|]. rewrite at_other in Hu by exact N. exact (B2 u new' sy Hu).
  - split; assumption.
Qed.

(** One thread at a time. *)
Definition settled (open : option nat) (s : sys) : Prop :=
  (forall t new syms, s_t s t = Defining new syms -> open = Some t)
  /\ (forall t syms n, s_t s t = Linking syms -> In n (map fst syms) -> In n (dnames s))
  /\ s_failed s = [] /\ links_ok s.
Lemma settled_run : forall l open s, inv s -> settled open s -> no_failure l -> one_at_a_time open l -> links_ok (run l s).
Proof.
  induction l as [|e l IH]; intros open s HI (S1 & S2 & S3 & S4) HN HO; [exact S4|].
  assert (HN' : no_failure l) by (intros t K; apply (HN t); right; exact K).
  change (run (e :: l) s) with (run l (run1 s e)). pose proof (inv_step s e HI) as HI'.
  destruct e as [t syms | t ok | t | t]; cbn [one_at_a_time] in HO.
  - destruct HO as [-> HO]. apply (IH (Some t)); try assumption. cbn [run1] in *.
    assert (ND : forall u new sy, s_t s u = Defining new sy -> False) by (intros u new sy H; discriminate (S1 u new sy H)).
    destruct (s_t s t) eqn:ET.
    + destruct syms as [|y syms].
      * split; [|split; [|split; assumption]]; cbn [s_t]; intros u.
        -- intros new sy Hu. destruct (Nat.eq_dec u t) as [-> | N]; [reflexivity|]. rewrite at_other in Hu by exact N. destruct (ND _ _ _ Hu).
        -- intros sy n Hu. destruct (Nat.eq_dec u t) as [-> | N]; [rewrite at_same in Hu; injection Hu as <-; intros []|].
           rewrite at_other in Hu by exact N. exact (S2 u sy n Hu).
      * destruct (mark (g_marked (s_g s)) (y :: syms)) as [new m]. split; [|split; [|split; assumption]]; cbn [s_t]; intros u.
        -- intros new' sy Hu. destruct (Nat.eq_dec u t) as [-> | N]; [reflexivity|]. rewrite at_other in Hu by exact N. destruct (ND _ _ _ Hu).
        -- intros sy n Hu. destruct (Nat.eq_dec u t) as [-> | N]; [rewrite at_same in Hu; discriminate|].
           rewrite at_other in Hu by exact N. exact (S2 u sy n Hu).
    + destruct (ND _ _ _ ET).
    + split; [|split; [exact S2|split; assumption]]. intros u new sy Hu. destruct (ND _ _ _ Hu).
  - assert (ok = true) as -> by (destruct ok; [reflexivity | exfalso; apply (HN t); left; reflexivity]).
    apply (IH (match open with Some u => if u =? t then None else open | None => None end)); try assumption.
    destruct (s_t s t) as [|new sy|sy] eqn:ET.
    + cbn [run1]. rewrite ET. split; [|split; [exact S2|split; assumption]]. intros u new' sy' Hu. pose proof (S1 u new' sy' Hu) as ->.
      destruct (Nat.eqb_spec u t) as [-> | N]; [rewrite ET in Hu; discriminate | reflexivity].
    + rewrite (define_step _ _ _ _ _ HI ET) in *. rewrite orb_true_l in *. pose proof (S1 _ _ _ ET) as ->. rewrite Nat.eqb_refl.
      assert (ALL : forall n, In n (g_marked (s_g s)) -> In n (map fst (g_dylib (s_g s) ++ new))).
      { intros n H. rewrite map_app. apply in_or_app. apply (i_marked s HI) in H. rewrite S3 in H. destruct H as [H | [[] | [u H]]]; [left; exact H|].
        right. unfold pend in H. destruct (s_t s u) as [|nu su|] eqn:EU; try destruct H. pose proof (S1 _ _ _ EU) as Q. injection Q as <-.
        rewrite ET in EU. injection EU as <- <-. exact H. }
      split; [|split; [|split; assumption]]; cbn [s_t]; intros u.
      * intros new' sy' Hu. destruct (Nat.eq_dec u t) as [-> | N]; [rewrite at_same in Hu; discriminate|]. rewrite at_other in Hu by exact N.
        pose proof (S1 _ _ _ Hu) as Q. injection Q as Q. exfalso. apply N. symmetry; exact Q.
      * intros sy' n Hu Hn. unfold dnames. cbn [s_g g_dylib]. destruct (Nat.eq_dec u t) as [-> | N].
        -- rewrite at_same in Hu. injection Hu as <-. apply ALL. apply (i_wants s HI t). unfold wants. rewrite ET. exact Hn.
        -- rewrite at_other in Hu by exact N. rewrite map_app. apply in_or_app. left. exact (S2 u sy' n Hu Hn).
    + cbn [run1]. rewrite ET. split; [|split; [exact S2|split; assumption]]. intros u new' sy' Hu. pose proof (S1 u new' sy' Hu) as ->.
      destruct (Nat.eqb_spec u t) as [-> | N]; [rewrite ET in Hu; discriminate | reflexivity].
  - apply (IH open); try assumption. cbn [run1] in *. destruct (s_t s t) as [|new sy|sy] eqn:ET; try (split; [exact S1|split; [exact S2|split; assumption]]).
    split; [|split; [|split; [exact S3|]]]; cbn [s_t]; try (intros u).
    + intros new' sy' Hu. destruct (Nat.eq_dec u t) as [-> | N]; [rewrite at_same in Hu; discriminate|]. rewrite at_other in Hu by exact N. exact (S1 _ _ _ Hu).
    + intros sy' n Hu. destruct (Nat.eq_dec u t) as [-> | N]; [rewrite at_same in Hu; discriminate|]. rewrite at_other in Hu by exact N. exact (S2 _ _ _ Hu).
    + intros sy' b [H | H]; [|exact (S4 _ _ _ H)]. injection H as _ _ <-. apply forallb_forall. intros x Hx.
      apply mem_spec. apply (S2 t sy); [exact ET | apply in_map; exact Hx].
  - apply (IH open); try assumption. split; [exact S1|split; [exact S2|split; assumption]].
Qed.

(** Names of JITDylibs. *)
Lemma append_inj : forall p a b : string, (p ++ a = p ++ b)%string -> a = b.
Proof. induction p as [|c p IH]; intros a b H; [exact H|]. cbn in H. injection H as H. apply IH. exact H. Qed.
Lemma dylib_name_inj : forall i j, dylib_name i = dylib_name j -> i = j.
Proof.
  intros i j H. apply append_inj in H. apply (f_equal NilEmpty.uint_of_string) in H. rewrite !NilEmpty.usu in H. injection H as H.
  rewrite <- (Unsigned.of_to i), <- (Unsigned.of_to j). f_equal. exact H.
Qed.
Definition dylibs_ok (s : sys) : Prop :=
  NoDup (g_dylibs (s_g s)) /\ forall d, In d (g_dylibs (s_g s)) -> d = "revmc.builtins"%string \/ exists i, i < g_next (s_g s) /\ d = dylib_name i.
Lemma dylibs_step : forall s e, dylibs_ok s -> dylibs_ok (run1 s e).
Proof.
  intros s e HD. destruct e as [t syms | t ok | t | t]; cbn [run1].
  - destruct (s_t s t); try exact HD. destruct syms; [exact HD|]. destruct (mark _ _). exact HD.
  - destruct (s_t s t) as [|new syms|syms]; try exact HD. destruct new; [exact HD|]. destruct (if ok then _ else _); exact HD.
  - destruct (s_t s t); exact HD.
  - destruct HD as [A B]. split; cbn [s_g g_dylibs g_next].
    + constructor; [|exact A]. intros K. destruct (B _ K) as [Q | (i & Hi & Q)]; [discriminate Q|]. apply dylib_name_inj in Q. lia.
    + intros d [<- | K]; [right; exists (g_next (s_g s)); split; [lia | reflexivity]|].
      destruct (B d K) as [Q | (i & Hi & Q)]; [left; exact Q | right; exists i; split; [lia | exact Q]].
Qed.
Lemma dylibs_run : forall l s, dylibs_ok s -> dylibs_ok (run l s).
Proof. induction l as [|e l IH]; intros s H; [exact H|]. apply IH. apply dylibs_step. exact H. Qed.
