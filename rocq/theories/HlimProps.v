(** C63: limits and process group of the JIT helper. *)
From Verif Require Import HlimProof.

(** A helper that starts is in a group of its own and under the limits: both address space limits as configured, and
    on as many CPUs as configured or as there are, all of them allowed before, the lowest first. Zero means no limit. *)
Theorem C63_limits : forall a max memory_limit cpu_count c c', pre_exec a max memory_limit cpu_count c = Started c' ->
  c_pid c' = c_pid c /\ c_pgid c' = c_pid c
  /\ c_as c' = (if memory_limit =? 0 then c_as c else (Nat.min memory_limit max, Nat.min memory_limit max))
  /\ (cpu_count = 0 -> c_cpus c' = c_cpus c)
  /\ (0 < cpu_count -> List.length (c_cpus c') = List.length (c_cpus c)
      /\ (forall i, allowed (c_cpus c') i -> allowed (c_cpus c) i)
      /\ count (c_cpus c') = Nat.min cpu_count (count (c_cpus c)) /\ 0 < count (c_cpus c')
      /\ forall i j, allowed (c_cpus c') j -> i < j -> allowed (c_cpus c) i -> allowed (c_cpus c') i).
Proof.
  intros a max mem cpus c c' H. unfold pre_exec, set_process_group in H. destruct (a_setpgid a); [|discriminate H].
  set (c1 := mkC (c_pid c) (c_pid c) (c_as c) (c_cpus c)) in *.
  assert (K : exists c2, (if 0 <? mem then set_rlimit a max mem c1 else Some c1) = Some c2 /\ c_pid c2 = c_pid c /\ c_pgid c2 = c_pid c /\ c_cpus c2 = c_cpus c
    /\ c_as c2 = (if mem =? 0 then c_as c else (Nat.min mem max, Nat.min mem max))).
  { destruct mem as [|m]; [exists c1; repeat split|]. cbn [Nat.ltb Nat.leb Nat.eqb] in *. unfold set_rlimit in *. destruct (a_setrlimit a); [|discriminate H].
    eexists. split; [reflexivity|]. repeat split. }
  destruct K as (c2 & E & K1 & K2 & K3 & K4). rewrite E in H. destruct cpus as [|n].
  - injection H as <-. split; [exact K1|]. split; [exact K2|]. split; [exact K4|]. split; [intros _; exact K3 | intros Q; lia].
  - cbn [Nat.ltb Nat.leb] in H. unfold limit_cpu_affinity in H. destruct (a_getaffinity a); [|discriminate H]. cbn [negb] in H. rewrite K3 in H.
    destruct (pick_spec (c_cpus c) (S n)) as (l & r' & EP & A & B & C & D & F); [lia|]. rewrite EP in H.
    destruct (r' =? S n) eqn:ER; [discriminate H|]. apply Nat.eqb_neq in ER. destruct (a_setaffinity a); [|discriminate H]. injection H as <-.
    cbn [c_pid c_pgid c_as c_cpus]. split; [exact K1|]. split; [exact K2|]. split; [exact K4|]. split; [intros Q; discriminate Q|]. intros _.
    split; [exact A|]. split; [exact B|]. split; [exact C|]. split; [lia | exact F].
Qed.
(** Starting fails exactly if a call it needs fails or no CPU is allowed at all; the count of CPUs never underflows. *)
Theorem C63_refused : forall a max memory_limit cpu_count c,
  pre_exec a max memory_limit cpu_count c <> Panicked
  /\ (pre_exec a max memory_limit cpu_count c = Refused <->
      a_setpgid a = false \/ (0 < memory_limit /\ a_setrlimit a = false)
      \/ (0 < cpu_count /\ (a_getaffinity a = false \/ count (c_cpus c) = 0 \/ a_setaffinity a = false))).
Proof.
  intros a max mem cpus c. unfold pre_exec, set_process_group. destruct (a_setpgid a); [|split; [discriminate | split; auto]].
  set (c1 := mkC (c_pid c) (c_pid c) (c_as c) (c_cpus c)) in *.
  assert (K : (0 < mem /\ a_setrlimit a = false /\ (if 0 <? mem then set_rlimit a max mem c1 else Some c1) = None)
    \/ (~ (0 < mem /\ a_setrlimit a = false) /\ exists c2, (if 0 <? mem then set_rlimit a max mem c1 else Some c1) = Some c2 /\ c_cpus c2 = c_cpus c)).
  { destruct mem as [|m]; [right; split; [lia | exists c1; split; reflexivity]|]. cbn [Nat.ltb Nat.leb]. unfold set_rlimit. destruct (a_setrlimit a).
    - right. split; [intros [_ Q]; discriminate Q | eexists; split; reflexivity].
    - left. repeat split. lia. }
  destruct K as [(K1 & K2 & ->) | (K1 & c2 & -> & K3)]; [split; [discriminate | split; auto]|]. destruct cpus as [|n].
  - cbn [Nat.ltb Nat.leb]. split; [discriminate|]. split; [intros Q; discriminate Q|]. intros [Q | [Q | [Q _]]]; [discriminate Q | contradiction | lia].
  - cbn [Nat.ltb Nat.leb]. unfold limit_cpu_affinity. rewrite K3.
    destruct (pick_spec (c_cpus c) (S n)) as (l & r' & -> & A & B & C & D & F); [lia|].
    destruct (a_getaffinity a); cbn [negb]; [|split; [discriminate | split; [intros _; right; right; split; [lia | auto] | reflexivity]]].
    destruct (Nat.eqb_spec r' (S n)) as [E | E].
    + split; [discriminate|]. split; [|reflexivity]. intros _. right; right. split; [lia|]. right; left. lia.
    + destruct (a_setaffinity a); (split; [discriminate|]); (split; [intros Q|]).
      * discriminate Q.
      * intros [Q | [Q | [_ [Q | [Q | Q]]]]]; [discriminate Q | contradiction | discriminate Q | lia | discriminate Q].
      * right; right. split; [lia | auto].
      * reflexivity.
Qed.

(** The signal to the group ends the helper and every process it has started, directly or not, and no other process. *)
Theorem C63_group : forall t pid l seen, helper t pid -> (forall x, In x t -> In (fst x) seen) -> fresh l t seen ->
  forall x, In x (kill_helper (sys l t) pid) <-> In x (sys l t) /\ ~ In (fst x) (family l [pid]).
Proof.
  intros t pid l seen (HP & H1 & H2) HS HF.
  assert (G : grouped pid (family l [pid]) (sys l t)).
  { apply (fresh_grouped l pid [pid] t seen); [|intros q [<- | []]; apply (HS _ HP) | exact HS | exact HF].
    intros x Hx. cbn [In]. split; [|intros [E | []]; apply H2; [exact Hx | symmetry; exact E]].
    intros E. left. destruct (Nat.eq_dec (fst x) pid) as [Q | Q]; [symmetry; exact Q | exfalso; exact (H1 x Hx Q E)]. }
  assert (M : forall l f, In pid f -> In pid (family l f)).
  { clear. induction l as [|[p q | p] l IH]; intros f H; cbn [family]; [exact H | | apply IH; exact H]. apply IH. destruct (existsb _ f); [right|]; exact H. }
  intros x. unfold kill_helper. destruct (existsb (fun x => snd x =? pid) (sys l t)) eqn:E; rewrite filter_In, negb_true_iff, Nat.eqb_neq.
  - split; intros [A B]; (split; [exact A|]); rewrite <- (G x A) in *; exact B.
  - assert (N : forall y, In y (sys l t) -> ~ In (fst y) (family l [pid])).
    { intros y Hy K. apply (G y Hy) in K. assert (existsb (fun x => snd x =? pid) (sys l t) = true) as Q by (apply existsb_exists; exists y; split; [exact Hy | apply Nat.eqb_eq; exact K]).
      rewrite Q in E. discriminate E. }
    split; intros [A B]; (split; [exact A|]); [apply N; exact A|]. intros K. apply (N x A). rewrite K. apply M. left; reflexivity.
Qed.

(** Killing a helper that is still alive leaves nothing of its family, and everything else. Missing: a helper that has
    exited by itself, see [C63_orphans_refuted]. *)
Theorem C63_kill_partial : forall t pid l seen, helper t pid -> (forall x, In x t -> In (fst x) seen) -> fresh l t seen ->
  In pid (map fst (sys l t)) ->
  forall x, In x (kill (sys l t) pid) <-> In x (sys l t) /\ ~ In (fst x) (family l [pid]).
Proof.
  intros t pid l seen HP HS HF HA. unfold kill. destruct (existsb (fun x => fst x =? pid) (sys l t)) eqn:E.
  - cbn [negb]. apply (C63_group t pid l seen HP HS HF).
  - exfalso. apply in_map_iff in HA. destruct HA as (x & Hx & Hi).
    assert (existsb (fun x => fst x =? pid) (sys l t) = true) as Q by (apply existsb_exists; exists x; split; [exact Hi | apply Nat.eqb_eq; exact Hx]).
    rewrite Q in E. discriminate E.
Qed.
(** Finding F30: if the helper has exited (crashed, say) while a process it started runs, killing the helper leaves that
    process, though the signal to the group would have reached it. *)
Theorem C63_orphans_refuted : exists t pid l seen x, helper t pid /\ (forall y, In y t -> In (fst y) seen) /\ fresh l t seen
  /\ In (fst x) (family l [pid]) /\ In x (kill (sys l t) pid) /\ ~ In x (kill_helper (sys l t) pid).
Proof.
  exists [(7, 7); (50, 50)], 50, [Fork 50 51; Exit 50], [7; 50], (51, 50). split; [|split; [|split; [|split; [|split]]]].
  - split; [right; left; reflexivity|]. split; intros x [<- | [<- | []]] Q; cbn in *; congruence.
  - intros y [<- | [<- | []]]; cbn; auto.
  - cbn. repeat split; intuition discriminate.
  - cbn. auto.
  - vm_compute. auto.
  - vm_compute. intuition discriminate.
Qed.

(** A limit of two CPUs out of 1, 3 and 4, and 10 units of memory. *)
Example C63_started :
  pre_exec (mkA true true true true) 99 10 2 (mkC 50 7 (20, 40) [false; true; false; true; true])
  = Started (mkC 50 50 (10, 10) [false; true; false; true; false])
  /\ pre_exec (mkA true true true true) 99 0 9 (mkC 50 7 (20, 40) [false; true; false; true; true])
  = Started (mkC 50 50 (20, 40) [false; true; false; true; true])
  /\ pre_exec (mkA true true true true) 99 0 1 (mkC 50 7 (20, 40) [false; false]) = Refused.
Proof. repeat split; vm_compute; reflexivity. Qed.
(** The host 7 with the helper 50 forks 8; the helper forks 51, which forks 52, and 51 exits before the helper is killed. *)
Example C63_killed :
  let t := [(7, 7); (50, 50)] in let l := [Fork 50 51; Fork 7 8; Fork 51 52; Exit 51] in
  sys l t = [(52, 50); (8, 7); (7, 7); (50, 50)] /\ kill (sys l t) 50 = [(8, 7); (7, 7)] /\ helper t 50 /\ fresh l t [7; 50] /\ family l [50] = [52; 51; 50].
Proof.
  split; [reflexivity|]. split; [reflexivity|]. split.
  - split; [right; left; reflexivity|]. split; intros x [<- | [<- | []]] Q; cbn in *; congruence.
  - cbn. repeat split; intuition discriminate.
Qed.

Print Assumptions C63_limits.
Print Assumptions C63_refused.
Print Assumptions C63_group.
Print Assumptions C63_kill_partial.
Print Assumptions C63_orphans_refuted.
