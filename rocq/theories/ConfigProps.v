(** C41: the configuration reaches the compiler, in-process and through the helper. *)
From Verif Require Import ConfigSpec ConfigProof.

(** A list of gas pairs (ids are bytes) is accepted exactly if it has every id once; the table is then the one described. *)
Theorem C41_gas_tables (pairs : list (nat * Z)) t : (forall id v, In (id, v) pairs -> (id < 256)%nat) -> gas_from_pairs pairs = Some t <-> describes pairs t.
Proof. apply from_pairs. Qed.
Print Assumptions C41_gas_tables.

Section Props.
  Context {path str spec rest : Type}.
  Notation config := (@config path rest).
  Notation job := (@job str spec).

  (** In-process: every job of a worker, of either kind, whatever came before it and whenever the compiler is recycled
      or could not be. *)
  Theorem C41_in_process build_debug build_frame (c : config) (l : list (job * (bool * bool))) :
    all_configured build_frame (fun p => p) c (fun j => match j_kind j with KJit => TJit | KAot => TAot end) l (worker build_debug build_frame c None None l).
  Proof. apply worker_ok; exact Logic.I. Qed.

  (** Out of process: a helper that the parent considers started for configuration [c] accepts it and compiles every job
      sent to it as [c] asks for. [spec_from_u8] is revm's inverse of the cast to u8. *)
  Theorem C41_helper (lossy : path -> path) (spec_to_u8 : spec -> Z) (spec_from_u8 : Z -> option spec) (default : config) build_debug build_frame i (c : config) (l : list (job * (bool * bool))) :
    matches_config lossy i c -> (forall t, c_gas c = Some t -> gas_table_ok t) -> (forall sp, spec_from_u8 (spec_to_u8 sp) = Some sp) -> Forall (fun e => j_kind (fst e) = KJit) l ->
    exists r, helper spec_from_u8 default build_debug build_frame i (map (fun e => (write_job spec_to_u8 (fst e), snd e)) l) = Some r /\
      all_configured build_frame lossy c (fun _ => TJitObject) l r.
  Proof. intros ->. apply helper_ok. Qed.

  (** The helper refuses an init message exactly if its gas pairs are malformed, and a request with an unknown
      optimization level or hardfork. *)
  Theorem C41_rejects_init (default : config) (i : init (path:=path)) : (forall ps id v, i_gas i = Some ps -> In (id, v) ps -> (id < 256)%nat) ->
    config_from_init default i = None <-> exists ps, i_gas i = Some ps /\ forall t, ~ describes ps t.
  Proof.
    intros B. unfold config_from_init. destruct (i_gas i) as [ps|]; [|split; [discriminate|intros (ps & X & _); discriminate]].
    assert (BP : forall id v, In (id, v) ps -> (id < 256)%nat) by (intros; eapply B; [reflexivity|eassumption]). destruct (gas_from_pairs ps) as [t|] eqn:E.
    - split; [discriminate|]. intros (qs & X & N). injection X as <-. exfalso. apply (N t). apply from_pairs; auto.
    - split; [|reflexivity]. intros _. exists ps. split; [reflexivity|]. intros t D. apply from_pairs in D; [congruence|exact BP].
  Qed.
  Theorem C41_rejects_request (spec_from_u8 : Z -> option spec) (q : request (str:=str)) :
    read_request spec_from_u8 q = None <-> spec_from_u8 (q_spec q) = None \/ ~ (0 <= q_opt q <= 3)%Z.
  Proof.
    unfold read_request. destruct (spec_from_u8 (q_spec q)); [|tauto]. unfold opt_from_u8.
    destruct (Z.eqb_spec (q_opt q) 0); [|destruct (Z.eqb_spec (q_opt q) 1); [|destruct (Z.eqb_spec (q_opt q) 2); [|destruct (Z.eqb_spec (q_opt q) 3)]]];
      split; try discriminate; try (intros [X|X]; [discriminate|exfalso; lia]). intros _. right. lia. reflexivity.
  Qed.
End Props.
Print Assumptions C41_in_process.
Print Assumptions C41_helper.
Print Assumptions C41_rejects_init.
Print Assumptions C41_rejects_request.

(** C52: a thread's compiler is replaced by a new one exactly after every [c_recycle c] compilations, as long as creating
    compilers works; with failures in between, no window of that many compilations passes without either a failure to create
    one or a new compiler; 0 turns it off. *)
Section Recycle.
  Context {path str spec rest : Type}.
  Implicit Types (l : list (@job str spec * (bool * bool))).
  Theorem C52_every build_debug build_frame (c : @config path rest) t l : Forall (fun e => snd e = (true, true)) l -> l <> [] -> (0 < c_recycle c)%nat ->
    exists k, held build_debug build_frame c t None l = Some (k, length l mod c_recycle c)%nat /\
      (length l mod c_recycle c = 0%nat -> k = create_compiler build_debug build_frame c (is_aot_backend t)).
  Proof. apply recycle_count. Qed.
  Theorem C52_window build_debug build_frame (c : @config path rest) t l0 l : held build_debug build_frame c t None l0 <> None ->
    Forall (fun e => snd (snd e) = true) l -> (0 < c_recycle c <= length l)%nat ->
    exists l1 e l2, l = l1 ++ e :: l2 /\ held build_debug build_frame c t None (l0 ++ l1 ++ [e]) = Some (create_compiler build_debug build_frame c (is_aot_backend t), 0%nat).
  Proof.
    intros N F R. destruct (recycle_window build_debug build_frame c t (held build_debug build_frame c t None l0) l) as (l1 & e & l2 & E & H); try assumption.
    - apply held_young. exact Logic.I.
    - exists l1, e, l2. split; [exact E|]. rewrite held_app. exact H.
  Qed.
  Theorem C52_never build_debug build_frame (c : @config path rest) t l : c_recycle c = 0%nat -> Forall (fun e => fst (snd e) = true) l -> l <> [] ->
    exists k, held build_debug build_frame c t None l = Some (k, length l).
  Proof. apply recycle_never. Qed.
End Recycle.
Print Assumptions C52_every.
Print Assumptions C52_window.
Print Assumptions C52_never.

(** A custom table; jobs of different levels on one thread, with recycling after two; dumps on. *)
Definition ex_table : gas_table := map (fun i => Z.of_nat (3 * i + 1)) (seq 0 256).
Definition ex_config : config := mkConfig (Some 7%nat) true false true false (Some ex_table) 2 2 OLess ONone tt.
Definition ex_default : config (path:=nat) := mkConfig None false true false false None 1 0 ODefault ODefault tt.
Definition ex_job (n : Z) (o : opt) : job (str:=nat) (spec:=nat) := mkJob KJit 5%nat 17%nat [96; n]%Z 9%nat o.
Definition ex_jobs : list (job * (bool * bool)) := [(ex_job 1 OAggressive, (false, true)); (ex_job 1 OAggressive, (true, true)); (ex_job 2 ONone, (true, true)); (ex_job 3 ODefault, (true, true))].
Example C41_ex_table : gas_table_ok ex_table /\ gas_from_pairs (gas_to_pairs ex_table) = Some ex_table /\ gas_from_pairs (rev (gas_to_pairs ex_table)) = Some ex_table /\
  gas_from_pairs ((3%nat, 0%Z) :: tl (gas_to_pairs ex_table)) = None /\ gas_from_pairs (tl (gas_to_pairs ex_table)) = None.
Proof. vm_compute. repeat split. Qed.
Example C41_ex : match helper (fun z => Some (Z.to_nat z)) ex_default false false (helper_init S ex_config) (map (fun e => (write_job Z.of_nat (fst e), snd e)) ex_jobs) with
  | Some [None; Some m1; Some m2; Some m3] => (o_opt (m_opts m1), o_opt (m_opts m2), o_opt (m_opts m3)) = (OAggressive, ONone, ODefault) /\ o_gas (m_opts m3) = Some ex_table /\
      (o_debug (m_opts m3), o_single (m_opts m3), o_dedup (m_opts m3), o_dse (m_opts m3), o_dump (m_opts m2)) = (true, false, false, true, Some (8, 17, 5)%nat)
  | _ => False
  end.
Proof. vm_compute. repeat split. Qed.
(** Five jobs, threshold 2: recycled after the second and fourth. *)
Example C52_ex : let l := map (fun n => (ex_job n ODefault, (true, true))) [1; 2; 3; 4; 5]%Z in
  Forall (fun e => snd e = (true, true)) l /\ c_recycle ex_config = 2%nat /\
  map (fun n => option_map snd (held false false ex_config TJit None (firstn n l))) [1; 2; 3; 4; 5]%nat = [Some 1; Some 0; Some 1; Some 0; Some 1]%nat.
Proof. split; [repeat constructor|]. vm_compute. auto. Qed.
