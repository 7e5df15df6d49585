(** C61: the builtins of the process-wide JIT. *)
From Verif Require Import DefProof.

(** Whatever the interleaving, what a thread is about to define is new: free of repetitions, not in the JITDylib and
    not being defined by another thread; so the definition is never refused as a duplicate. *)
Theorem C61_once : forall l t new syms, s_t (run l s_init) t = Defining new syms ->
  NoDup (map fst new) /\ (forall n, In n (map fst new) -> forall a, ~ has (g_dylib (s_g (run l s_init))) n a)
  /\ (forall u new' syms', u <> t -> s_t (run l s_init) u = Defining new' syms' -> forall n, In n (map fst new) -> ~ In n (map fst new'))
  /\ (forall n a, has (g_dylib (s_g (run (l ++ [Define t true]) s_init))) n a <-> has (g_dylib (s_g (run l s_init))) n a \/ In (n, a) new).
Proof.
  intros l t new syms H. pose proof (inv_reach l) as HI.
  assert (P : pend (run l s_init) t = map fst new) by (unfold pend; rewrite H; reflexivity).
  split; [rewrite <- P; apply (i_pend_nodup _ HI)|]. split; [|split].
  - intros n Hn a Ha. rewrite <- P in Hn. apply (proj1 (i_pend _ HI t n Hn)). apply (in_map fst) in Ha. exact Ha.
  - intros u new' syms' N Hu n Hn. rewrite <- P in Hn. pose proof (proj2 (proj2 (i_pend _ HI t n Hn)) u N) as K.
    unfold pend in K. rewrite Hu in K. exact K.
  - intros n a. unfold run at 1. rewrite fold_left_app. fold (run l s_init). cbn [fold_left].
    rewrite (define_step _ _ _ _ _ HI H). rewrite orb_true_l. cbn [s_g g_dylib]. unfold has. rewrite in_app_iff. reflexivity.
Qed.

(** A name has one entry, with an address some thread asked for; no step removes or changes it. *)
Theorem C61_entries : forall l,
  NoDup (map fst (g_dylib (s_g (run l s_init))))
  /\ (forall n a, has (g_dylib (s_g (run l s_init))) n a -> asked l n a)
  /\ forall l' n a, has (g_dylib (s_g (run l s_init))) n a -> has (g_dylib (s_g (run (l ++ l') s_init))) n a.
Proof.
  intros l. split; [apply (i_nodup _ (inv_reach l))|]. split.
  - intros n a H. assert (B : backed (fun x => asked l (fst x) (snd x)) (run l s_init)).
    { apply backed_run; [apply inv_init | split; [intros x [] | intros t new syms K; discriminate K]|].
      intros t syms [m b] Ht Hx. exists t, syms. split; assumption. }
    exact (proj1 B _ H).
  - intros l' n a H. unfold run at 1. rewrite fold_left_app. destruct (run_dylib l' (run l s_init) (inv_reach l)) as [more E].
    fold (run l s_init). fold (run l' (run l s_init)). unfold has. rewrite E. apply in_or_app. left; exact H.
Qed.

(** When a thread is about to link, each builtin it needs is in the JITDylib, or another thread is still to define it,
    or its definition has failed. *)
Theorem C61_link : forall l t syms n, s_t (run l s_init) t = Linking syms -> In n (map fst syms) ->
  (exists a, has (g_dylib (s_g (run l s_init))) n a)
  \/ (exists u new syms', u <> t /\ s_t (run l s_init) u = Defining new syms' /\ In n (map fst new))
  \/ (In n (s_failed (run l s_init)) /\ exists u, In (Define u false) l).
Proof.
  intros l t syms n H Hn. pose proof (inv_reach l) as HI.
  assert (M : In n (g_marked (s_g (run l s_init)))) by (apply (i_wants _ HI t); unfold wants; rewrite H; exact Hn).
  apply (i_marked _ HI) in M. destruct M as [M | [M | [u M]]].
  - left. apply in_map_iff in M. destruct M as ([k a] & E & M). cbn in E. subst k. exists a. exact M.
  - right; right. split; [exact M|]. destruct (failed_why l s_init n inv_init M) as [[] | K]. exact K.
  - right; left. unfold pend in M. destruct (s_t (run l s_init) u) as [|new sy|] eqn:E; try destruct M.
    exists u, new, sy. split; [intros ->; rewrite H in E; discriminate E | split; [exact E | exact M]].
Qed.

(** Threads that do not overlap between the lock and the definition: nothing fails to link. Missing: threads that do
    overlap, see [C61_race_refuted], and definitions that fail, see [C61_lost]. *)
Theorem C61_sequential_partial : forall l, one_at_a_time None l -> no_failure l -> links_ok (run l s_init).
Proof.
  intros l HO HN. apply (settled_run l None s_init); [apply inv_init | | exact HN | exact HO].
  split; [intros t new syms H; discriminate H|]. split; [intros t syms n H; discriminate H|]. split; [reflexivity | intros t syms b []].
Qed.
(** More generally, a link succeeds whenever no other thread is between the lock and its definition at that moment. *)
Theorem C61_quiet : forall l t syms, no_failure l -> s_t (run l s_init) t = Linking syms ->
  (forall u new syms', u <> t -> s_t (run l s_init) u = Defining new syms' -> new = []) ->
  In (t, syms, true) (s_links (run (l ++ [Link t]) s_init)).
Proof.
  intros l t syms HN H HQ. unfold run at 1. rewrite fold_left_app. fold (run l s_init). cbn [fold_left run1]. rewrite H. cbn [s_links].
  left. f_equal. apply forallb_forall. intros x Hx. apply mem_spec.
  destruct (C61_link l t syms (fst x) H (in_map fst _ _ Hx)) as [[a K] | [(u & new & sy & N & E & K) | [_ [u K]]]].
  - apply (in_map fst) in K. exact K.
  - rewrite (HQ u new sy N E) in K. destruct K.
  - destruct (HN u K).
Qed.

(** A name whose definition failed once is never defined, whatever is asked for later; code that needs it never links. *)
Theorem C61_lost : forall l l' n, In n (s_failed (run l s_init)) ->
  (forall a, ~ has (g_dylib (s_g (run (l ++ l') s_init))) n a)
  /\ forall t syms, In n (map fst syms) -> s_t (run (l ++ l') s_init) t = Linking syms ->
     In (t, syms, false) (s_links (run (l ++ l' ++ [Link t]) s_init)).
Proof.
  intros l l' n H.
  assert (F : In n (s_failed (run (l ++ l') s_init))).
  { unfold run. rewrite fold_left_app. apply (run_failed l' (run l s_init) n H). }
  pose proof (i_failed _ (inv_reach (l ++ l')) n F) as K. split.
  - intros a Ha. apply K. apply (in_map fst) in Ha. exact Ha.
  - intros t syms Hn Ht. rewrite app_assoc. unfold run at 1. rewrite fold_left_app. fold (run (l ++ l') s_init). cbn [fold_left run1]. rewrite Ht. cbn [s_links].
    left. f_equal. destruct (forallb (found (g_dylib (s_g (run (l ++ l') s_init)))) syms) eqn:E; [|reflexivity]. exfalso. rewrite forallb_forall in E.
    apply in_map_iff in Hn. destruct Hn as (x & <- & Hx). apply K. apply mem_spec. exact (E x Hx).
Qed.

(** Finding F29: two threads ask for the same builtin; the second skips it and links before the first defines it. *)
Theorem C61_race_refuted : exists l t syms, no_failure l /\ In (t, syms, false) (s_links (run l s_init)).
Proof.
  exists [Start 0 [(1, 10)]; Start 1 [(1, 10)]; Define 1 true; Link 1; Define 0 true], 1, [(1, 10)]. split.
  - intros t [H | [H | [H | [H | [H | []]]]]]; discriminate H.
  - vm_compute. left. reflexivity.
Qed.
(** And, with one thread only and one failed definition, the same request repeated does not link either. *)
Theorem C61_retry_refuted : exists l syms, one_at_a_time None l
  /\ s_links (run l s_init) = [(0, syms, false); (0, syms, false)] /\ (forall x, In x syms -> asked l (fst x) (snd x)).
Proof.
  exists [Start 0 [(1, 10)]; Define 0 false; Link 0; Start 0 [(1, 10)]; Define 0 true; Link 0], [(1, 10)]. split; [|split].
  - cbn. repeat split.
  - vm_compute. reflexivity.
  - intros x [<- | []]. exists 0, [(1, 10)]. split; left; reflexivity.
Qed.

(** The JITDylibs of the process have names of their own, whatever the interleaving. *)
Theorem C61_dylibs : forall l, NoDup (g_dylibs (s_g (run l s_init)))
  /\ List.length (g_dylibs (s_g (run l s_init))) = S (List.length (filter (fun e => match e with NewDylib _ => true | _ => false end) l)).
Proof.
  intros l. split.
  - apply dylibs_run. split; [constructor; [intros [] | constructor]|]. intros d [<- | []]. left; reflexivity.
  - assert (G : forall l s, List.length (g_dylibs (s_g (run l s))) = List.length (filter (fun e => match e with NewDylib _ => true | _ => false end) l) + List.length (g_dylibs (s_g s))).
    { clear l. induction l as [|e l IH]; intros s; [reflexivity|]. change (run (e :: l) s) with (run l (run1 s e)). rewrite IH.
      destruct e as [t syms | t ok | t | t]; cbn [filter run1].
      - destruct (s_t s t); try reflexivity. destruct syms; [reflexivity|]. destruct (mark _ _). reflexivity.
      - destruct (s_t s t) as [|new syms|syms]; try reflexivity. destruct new; [reflexivity|]. destruct (if ok then _ else _); reflexivity.
      - destruct (s_t s t); reflexivity.
      - cbn [s_g g_dylibs List.length]. lia. }
    rewrite G. cbn. lia.
Qed.

(** Two threads with overlapping requests, one after the other; then a third with a repeated name. *)
Example C61_example :
  let l := [NewDylib 0; Start 0 [(1, 10); (2, 20)]; Define 0 true; NewDylib 1; Start 1 [(2, 20); (3, 30)]; Link 0; Define 1 true; Link 1;
            Start 2 [(4, 40); (4, 40); (1, 10)]; Define 2 true; Link 2] in
  one_at_a_time None l /\ no_failure l /\ g_dylib (s_g (run l s_init)) = [(1, 10); (2, 20); (3, 30); (4, 40)]
  /\ map snd (s_links (run l s_init)) = [true; true; true]
  /\ g_dylibs (s_g (run l s_init)) = ["revmc.compiler.1"; "revmc.compiler.0"; "revmc.builtins"]%string.
Proof.
  split; [cbn; repeat split|]. split; [|split; [|split]; vm_compute; reflexivity].
  intros t H. repeat (destruct H as [H | H]; [discriminate H|]). exact H.
Qed.
(** Hypotheses of [C61_once], [C61_link] with its three cases, and [C61_lost]. *)
Example C61_states :
  s_t (run [Start 0 [(1, 10)]; Start 1 [(1, 10); (2, 20)]] s_init) 1 = Defining [(2, 20)] [(1, 10); (2, 20)]
  /\ s_t (run [Start 0 [(1, 10)]; Start 1 [(1, 10); (2, 20)]; Define 1 true] s_init) 1 = Linking [(1, 10); (2, 20)]
  /\ s_t (run [Start 0 [(1, 10)]; Start 1 [(1, 10); (2, 20)]; Define 1 true] s_init) 0 = Defining [(1, 10)] [(1, 10)]
  /\ s_failed (run [Start 0 [(1, 10)]; Define 0 false] s_init) = [1].
Proof. repeat split; vm_compute; reflexivity. Qed.

Print Assumptions C61_once.
Print Assumptions C61_entries.
Print Assumptions C61_link.
Print Assumptions C61_sequential_partial.
Print Assumptions C61_quiet.
Print Assumptions C61_lost.
Print Assumptions C61_race_refuted.
Print Assumptions C61_retry_refuted.
Print Assumptions C61_dylibs.
