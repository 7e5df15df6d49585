(** C53 and C54: what the builtins do to the world. *)
From Verif Require Import HostSpec HostProof.
Open Scope Z_scope.

(** ** C53: static frames. *)

(** Whatever a static frame and the frames it calls do, nothing observable changes. *)
Theorem C53_static_frames {W O} (h : host W) g fk transfer (obs : W -> O) fr w w' :
  loads_keep h obs -> moves transfer obs ->
  exec h g fk transfer obs fr w w' -> fr_static fr = true -> obs w' = obs w.
Proof. intros LK TR X E. exact (exec_static h g fk obs LK transfer TR fr w w' X E). Qed.

(** A frame called with STATICCALL changes nothing, whoever calls it. *)
Theorem C53_staticcall {W O} (h : host W) g fk transfer (obs : W -> O) fr limit to value i il o ol e ci e' w :
  loads_keep h obs -> moves transfer obs ->
  run_op h g fk fr (OCall KStaticCall limit to value i il o ol) e = (HOk (ACall ci), e') ->
  exec h g fk transfer obs (child ci) (enter transfer ci (e_w e')) w -> obs w = obs (e_w e).
Proof.
  intros LK TR H X. destruct (run_call h g fk _ _ _ _ _ H) as (k' & l' & t' & v' & a1 & a2 & a3 & a4 & EQ & C).
  injection EQ as <- <- <- <- <- <- <- <-.
  destruct (hcall_shape h g fk _ _ _ _ _ _ _ _ _ _ _ _ C) as (S1 & _ & _ & _ & V).
  assert (CS : fr_static (child ci) = true) by (cbn; rewrite S1; apply Bool.orb_true_r).
  rewrite (exec_static h g fk obs LK transfer TR _ _ _ X CS). unfold enter.
  pose proof (keep_call h g fk obs LK fr KStaticCall limit to value i il o ol e) as K. rewrite C in K. cbn [snd] in K. rewrite <- K.
  destruct (ci_apparent ci); [reflexivity|]. apply TR. left. apply V. reflexivity.
Qed.

(** The instructions refused are exactly those of EIP-214, in static frames, before anything happens. *)
Theorem C53_eip214 {W} (h : host W) g fk fr o e :
  (fr_static fr = true /\ forbidden o = true -> run_op h g fk fr o e = (HErr (HB EStatic), e)) /\
  ((exists e', run_op h g fk fr o e = (HErr (HB EStatic), e')) -> fr_static fr = true /\ forbidden o = true).
Proof.
  split.
  - intros [A B]. apply static_op. rewrite A, B. reflexivity.
  - intros (e' & H). destruct (fr_static fr && forbidden o)%bool eqn:E; [apply andb_prop in E; exact E|].
    destruct (nost_op h g fk fr o E e e' H).
Qed.

(** ** C54: cold items. *)

(** SLOAD gives the value and costs the surcharge exactly when the slot was cold (from Berlin on): skipping a
    load that cannot be paid for is not observable. *)
Theorem C54_sload {W} (h : host W) g fk fr key e :
  skips (fun w => h_sload h w (fr_target fr) key) -> 0 <= e_gas e ->
  priced (hsload h g fk fr key) e (h_sload h (e_w e) (fr_target fr) key false)
         (fun cold => if fk_berlin fk && cold then hg_cold_slot g else 0).
Proof. apply sload_priced. Qed.

(** The same for the instructions that look at an account: only 20 bytes of the operand count, an empty
    account has hash 0. *)
Definition seen {W} (h : host W) (e : est W) (a : Z) (f : ainfo -> Z) : lres (Z * bool) * W :=
  match h_account h (e_w e) (a mod 2 ^ 160) false with
  | (LOk (i, cold), w) => (LOk (f i, cold), w)
  | (LSkipped, w) => (LSkipped, w)
  | (LDb, w) => (LDb, w)
  end.
Lemma acc_map {W} (h : host W) g a e (f : ainfo -> Z) :
  skips (fun w => h_account h w (a mod 2 ^ 160)) -> 0 <= e_gas e ->
  priced (run i <- load_acc h g (to_addr a); hret (f i)) e (seen h e a f) (fun cold => if cold then hg_cold_account g else 0).
Proof.
  intros SK G0. pose proof (acc_priced h g (a mod 2 ^ 160) e SK G0) as P. unfold priced, seen in *. fold (to_addr a) in *.
  destruct (h_account h (e_w e) (to_addr a) false) as [[[i c]| |] w].
  - destruct (_ <=? _).
    + rewrite (bind_ok _ _ _ _ _ P). reflexivity.
    + destruct P as (e' & P). rewrite (bind_err _ _ _ _ _ P). eauto.
  - destruct P as (x & e' & P). rewrite (bind_err _ _ _ _ _ P). eauto.
  - destruct P as (x & e' & P). rewrite (bind_err _ _ _ _ _ P). eauto.
Qed.
Theorem C54_accounts {W} (h : host W) g a e :
  skips (fun w => h_account h w (a mod 2 ^ 160)) -> 0 <= e_gas e ->
  let cost cold := if cold : bool then hg_cold_account g else 0 in
  priced (hbalance h g a) e (seen h e a ai_balance) cost /\
  priced (hextcodesize h g a) e (seen h e a (fun i => Z.of_nat (length (ai_code i)))) cost /\
  priced (hextcodehash h g a) e (seen h e a (fun i => if ai_empty i then 0 else ai_hash i)) cost.
Proof. intros SK G0 cost. split; [|split]; apply acc_map; assumption. Qed.

(** SSTORE outside static frames, with more gas than the stipend. *)
Theorem C54_sstore {W} (h : host W) g fk fr key value e :
  schedule g fk -> skips (fun w => h_sstore h w (fr_target fr) key value) -> fr_static fr = false -> 0 <= e_res e ->
  fk_istanbul fk = false \/ hg_stipend g < e_gas e ->
  stored h g fk fr key value e (hsstore h g fk fr key value e).
Proof. apply sstore_stored. Qed.

(** EIP-2200: from Istanbul on, with at most the stipend left, SSTORE fails before anything happens; that
    error has no other cause. *)
Theorem C54_sentry {W} (h : host W) g fk fr key value e :
  (fr_static fr = false -> fk_istanbul fk = true -> e_gas e <= hg_stipend g -> hsstore h g fk fr key value e = (HErr HSentry, e)) /\
  (forall e', hsstore h g fk fr key value e = (HErr HSentry, e') -> fr_static fr = false /\ fk_istanbul fk = true /\ e_gas e <= hg_stipend g).
Proof.
  split.
  - intros NS IS LE. unfold hsstore, hbind, non_static, remaining. rewrite NS, IS. cbn [andb].
    destruct (Z.leb_spec (e_gas e) (hg_stipend g)); [reflexivity|lia].
  - intros e' H. unfold hsstore in H.
    assert (NB : forall A B (m : hm W A) (f : A -> hm W B), (forall x y, m x <> (HErr HSentry, y)) -> (forall a x y, f a x <> (HErr HSentry, y)) -> forall x y, hbind m f x <> (HErr HSentry, y)).
    { intros A B m f M F x y. unfold hbind. pose proof (M x) as MX. destruct (m x) as [[a|z] x']; [apply F|]. intros Q. apply (MX x'). congruence. }
    assert (NL : forall A (f : W -> lres A * W) x y, hload f x <> (HErr HSentry, y)) by (intros A f x y; unfold hload; destruct (f _) as [[?| |] ?]; discriminate).
    assert (NF : forall A (f : W -> lres A * W) x y, hload_fatal f x <> (HErr HSentry, y)) by (intros A f x y; unfold hload_fatal; destruct (f _) as [[?| |] ?]; discriminate).
    assert (NC : forall c (x y : est W), hcharge c x <> (HErr HSentry, y)) by (intros c x y; unfold hcharge; destruct (charge_b _ _); discriminate).
    assert (NG : forall c (x y : est W), hstate_gas c x <> (HErr HSentry, y)) by (intros c x y; unfold hstate_gas; destruct (state_gas _ _ _) as [[? ?]|]; discriminate).
    unfold hbind at 1, non_static in H. destruct (fr_static fr); [discriminate H|]. unfold hbind at 1, remaining at 1 in H.
    destruct (fk_istanbul fk); cbn [andb] in H.
    + destruct (Z.leb_spec (e_gas e) (hg_stipend g)) as [L|L]; [auto|]. exfalso. revert H.
      apply NB; [apply NC|]. intros _. apply NB.
      { destruct (fk_berlin fk); [apply NB; [discriminate|intros; apply NL]|apply NF]. }
      intros [[o p] c]. apply NB; [apply NC|]. intros _. apply NB; [|discriminate].
      destruct (fk_8037 fk); [|discriminate]. apply NB; [apply NG|]. intros _. cbv zeta. destruct (0 <? _); discriminate.
    + exfalso. revert H.
      apply NB; [apply NC|]. intros _. apply NB.
      { destruct (fk_berlin fk); [apply NB; [discriminate|intros; apply NL]|apply NF]. }
      intros [[o p] c]. apply NB; [apply NC|]. intros _. apply NB; [|discriminate].
      destruct (fk_8037 fk); [|discriminate]. apply NB; [apply NG|]. intros _. cbv zeta. destruct (0 <? _); discriminate.
Qed.

(** SELFDESTRUCT outside static frames. *)
Theorem C54_selfdestruct {W} (h : host W) g fk fr target e :
  schedule g fk -> skips (fun w => h_selfdestruct h w (fr_target fr) (target mod 2 ^ 160)) -> fr_static fr = false -> 0 <= e_res e ->
  destroyed h g fk fr target e (hselfdestruct h g fk fr target e).
Proof. apply sd_destroyed_ok. Qed.

(** ** A concrete host, to show that the hypotheses can be met. *)
Record dw := mkDW { d_bal : list (Z * Z); d_sto : list (Z * Z * Z); d_log : list (list Z); d_warm : list (Z * Z) }.
Definition d_obs (w : dw) := (d_bal w, d_sto w, d_log w).
Fixpoint d_get (l : list (Z * Z * Z)) (a k : Z) : Z :=
  match l with [] => 0 | (a', k', v) :: l => if (a =? a') && (k =? k') then v else d_get l a k end.
Fixpoint d_getb (l : list (Z * Z)) (a : Z) : Z := match l with [] => 0 | (a', v) :: l => if a =? a' then v else d_getb l a end.
Definition d_is_warm (w : dw) (a k : Z) : bool := existsb (fun p => (fst p =? a) && (snd p =? k)) (d_warm w).
Definition d_heat (w : dw) (a k : Z) : dw := mkDW (d_bal w) (d_sto w) (d_log w) ((a, k) :: d_warm w).
(** Looking at item [k] of [a] ([-1] is the account itself), then [f]. *)
Definition d_look {A} (w : dw) (a k : Z) (skip : bool) (x : A) (f : dw -> dw) : lres (A * bool) * dw :=
  if d_is_warm w a k then (LOk (x, false), f w) else if skip then (LSkipped, w) else (LOk (x, true), f (d_heat w a k)).
Definition d_move (w : dw) (from to v : Z) : dw :=
  if (v =? 0) || (from =? to) then w
  else mkDW ((from, d_getb (d_bal w) from - v) :: (to, d_getb (d_bal w) to + v) :: d_bal w) (d_sto w) (d_log w) (d_warm w).
Definition d_host : host dw := mkHost
  (fun w a k s => d_look w a k s (d_get (d_sto w) a k) (fun w => w))
  (fun w a k v s => d_look w a k s (d_get (d_sto w) a k, d_get (d_sto w) a k) (fun w => mkDW (d_bal w) ((a, k, v) :: d_sto w) (d_log w) (d_warm w)))
  (fun w a s => d_look w a (-1) s (mkAI (d_getb (d_bal w) a) [96; 0] 7 (d_getb (d_bal w) a =? 0)) (fun w => w))
  (fun w a => (Some (d_getb (d_bal w) a), w))
  (fun w a k => 0) (fun w a k v => w)
  (fun w a t d => mkDW (d_bal w) (d_sto w) ((a :: t ++ d) :: d_log w) (d_warm w))
  (fun w a t s => d_look w t (-1) s (mkSD (negb (d_getb (d_bal w) a =? 0)) (negb (d_getb (d_bal w) t =? 0)) false)
                    (fun w => d_move w a t (d_getb (d_bal w) a)))
  (fun w gas a t c => (LOk (100, 0), d_heat w a (-1))).
Definition d_gas : hgas := mkHG 2500 2000 2300 100 (fun _ v cold => if cold then 2100 else 0) (fun _ => 50) (fun _ => 0) (fun _ _ => 7)
  2600 (fun new cold => 5000 + (if new then 25000 else 0) + (if cold then 2600 else 0)) 30 0
  (fun n len => 375 * (n + 1) + 8 * len) (fun _ => 0) 0 (mkGP 9000 2300 64 (fun _ => 0) 32000 (fun _ => 32000)).
Definition d_fk : forks := mkFk true true true true true true.

Lemma d_loads : loads_keep d_host d_obs.
Proof.
  split; intros; cbn; unfold d_look, d_obs; repeat match goal with |- context [if ?b then _ else _] => destruct b end; reflexivity.
Qed.
Lemma d_moves : moves d_move d_obs.
Proof. intros w from to v [-> | ->]; unfold d_move; [reflexivity|]. rewrite Z.eqb_refl, Bool.orb_true_r. reflexivity. Qed.
Lemma d_skips {A} a k (x : dw -> A) (f : dw -> dw) : skips (fun w s => d_look w a k s (x w) f).
Proof. intros w. unfold d_look. destruct (d_is_warm w a k); reflexivity. Qed.
Lemma d_schedule : schedule d_gas d_fk.
Proof.
  split; cbn; intros; try lia; try (split; [lia|]; intros); repeat match goal with |- context [if ?b then _ else _] => destruct b end; lia.
Qed.

Definition d_w0 : dw := mkDW [(10, 1000)] [(10, 1, 77)] [] [].
Definition d_e (gas : Z) (w : dw) : est dw := mkE (mkB (mkMem gas 0 0) (fun _ => 0)) 0 0 w.
Definition d_fr (static : bool) : frame := mkFr static 10 5 0.

(** A static frame runs CALLCODE with value 5 to 20; the called frame, static and at the same address, reads a
    cold slot and tries to write it. The warm items differ afterwards. *)
Definition d_callcode := OCall KCallCode 50000 20 5 0 0 0 0.
Definition d_ci : call_inputs := match run_op d_host d_gas d_fk (d_fr true) d_callcode (d_e 100000 d_w0) with (HOk (ACall ci), _) => ci | _ => mkCI None None 0 0 0 0 0 false false 0 end.
Definition d_w1 : dw := mkDW [(10, 1000)] [(10, 1, 77)] [] [(10, 1); (20, -1)].
Example C53_static_ex : exec d_host d_gas d_fk d_move d_obs (d_fr true) d_w0 d_w1 /\ d_w1 <> d_w0 /\
  child d_ci = mkFr true 10 10 5 /\
  run_op d_host d_gas d_fk (child d_ci) (OSstore 1 5) (d_e 50000 d_w1) = (HErr (HB EStatic), d_e 50000 d_w1).
Proof.
  split; [|split; [discriminate|split; vm_compute; reflexivity]].
  refine (ex_call _ _ _ _ _ (d_fr true) d_callcode (d_e 100000 d_w0) d_ci _ d_w1 d_w1 d_w1 _ _ (or_introl eq_refl) (ex_end _ _ _ _ _ _ _)).
  - vm_compute. reflexivity.
  - change (enter d_move d_ci _) with (e_w (d_e 50000 (d_heat d_w0 20 (-1)))).
    refine (ex_op _ _ _ _ _ (child d_ci) (OSload 1) _ (HOk (AWord 77)) _ d_w1 _ _ _ _); [vm_compute; reflexivity|discriminate|discriminate|].
    match goal with |- exec _ _ _ _ _ _ ?w _ => change w with (e_w (d_e 50000 d_w1)) end.
    refine (ex_op _ _ _ _ _ (child d_ci) (OSstore 1 5) (d_e 50000 d_w1) (HErr (HB EStatic)) (d_e 50000 d_w1) d_w1 _ _ _ _); [vm_compute; reflexivity|discriminate|discriminate|].
    apply ex_end.
Qed.
(** The same store is observable outside a static frame. *)
Example C53_dynamic_ex : exists e', run_op d_host d_gas d_fk (d_fr false) (OSstore 1 5) (d_e 50000 d_w0) = (HOk ANone, e') /\ d_obs (e_w e') <> d_obs d_w0.
Proof. eexists. split; [vm_compute; reflexivity|discriminate]. Qed.
Example C53_obs_ex : d_obs d_w1 = d_obs d_w0.
Proof. exact (C53_static_frames d_host d_gas d_fk d_move d_obs (d_fr true) d_w0 d_w1 d_loads d_moves (proj1 C53_static_ex) eq_refl). Qed.
(** SLOAD of a cold slot with and without the gas for it; SSTORE of a cold slot; the sentry. *)
Example C54_sload_ex :
  fst (hsload d_host d_gas d_fk (d_fr true) 1 (d_e 2000 d_w0)) = HOk 77 /\
  fst (hsload d_host d_gas d_fk (d_fr true) 1 (d_e 1999 d_w0)) = HErr (HB EOutOfGas) /\
  e_gas (snd (hsload d_host d_gas d_fk (d_fr true) 1 (d_e 1999 (d_heat d_w0 10 1)))) = 1999.
Proof. vm_compute. auto. Qed.
Example C54_sstore_ex :
  (exists w, hsstore d_host d_gas d_fk (d_fr false) 1 5 (d_e 5000 d_w0) = (HOk tt, settled (d_e 5000 d_w0) 2200 50 0 7 w)) /\
  fst (hsstore d_host d_gas d_fk (d_fr false) 1 5 (d_e 2300 d_w0)) = HErr HSentry /\
  stored d_host d_gas d_fk (d_fr false) 1 5 (d_e 5000 d_w0) (hsstore d_host d_gas d_fk (d_fr false) 1 5 (d_e 5000 d_w0)).
Proof.
  split; [eexists; vm_compute; reflexivity|]. split; [reflexivity|].
  apply C54_sstore; [exact d_schedule|exact (d_skips 10 1 (fun w => (d_get (d_sto w) 10 1, d_get (d_sto w) 10 1)) _)|reflexivity|cbn; lia|right; cbn; lia].
Qed.
Example C54_selfdestruct_ex :
  fst (hselfdestruct d_host d_gas d_fk (d_fr false) 20 (d_e 32630 d_w0)) = HErr HDestruct /\
  fst (hselfdestruct d_host d_gas d_fk (d_fr false) 20 (d_e 32629 d_w0)) = HErr (HB EOutOfGas) /\
  destroyed d_host d_gas d_fk (d_fr false) 20 (d_e 32630 d_w0) (hselfdestruct d_host d_gas d_fk (d_fr false) 20 (d_e 32630 d_w0)).
Proof.
  split; [reflexivity|]. split; [reflexivity|].
  apply C54_selfdestruct; [exact d_schedule| |reflexivity|cbn; lia].
  exact (d_skips 20 (-1) (fun w => mkSD (negb (d_getb (d_bal w) 10 =? 0)) (negb (d_getb (d_bal w) 20 =? 0)) false) _).
Qed.

Print Assumptions C53_static_frames.
Print Assumptions C53_staticcall.
Print Assumptions C53_eip214.
Print Assumptions C54_sload.
Print Assumptions C54_accounts.
Print Assumptions C54_sstore.
Print Assumptions C54_sentry.
Print Assumptions C54_selfdestruct.
