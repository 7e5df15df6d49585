(** Proofs about the builtins that use the host. *)
From Verif Require Import HostSpec.
Open Scope Z_scope.

Section Keeps.
  Context {W O : Type} (h : host W) (g : hgas) (fk : forks) (obs : W -> O) (LK : loads_keep h obs).

  Definition keep {A} (m : hm W A) : Prop := forall e, obs (e_w (snd (m e))) = obs (e_w e).

  Lemma keep_bind {A B} (m : hm W A) (f : A -> hm W B) : keep m -> (forall a, keep (f a)) -> keep (hbind m f).
  Proof.
    intros M F e. unfold hbind. pose proof (M e) as X. destruct (m e) as [[a|x] e']; cbn [snd] in *.
    - rewrite F. exact X.
    - exact X.
  Qed.
  Lemma keep_ret {A} (a : A) : keep (hret a). Proof. intros e. reflexivity. Qed.
  Lemma keep_fail {A} x : keep (@hfail W A x). Proof. intros e. reflexivity. Qed.
  Lemma keep_rem : keep remaining. Proof. intros e. reflexivity. Qed.
  Lemma keep_res : keep reservoir. Proof. intros e. reflexivity. Qed.
  Lemma keep_charge c : keep (hcharge c). Proof. intros e. unfold hcharge. destruct (charge_b _ _); reflexivity. Qed.
  Lemma keep_state c : keep (hstate_gas c). Proof. intros e. unfold hstate_gas. destruct (state_gas _ _ _) as [[b r]|]; reflexivity. Qed.
  Lemma keep_lift {A} (f : bst -> bres (A * bst)) : keep (lift f). Proof. intros e. unfold lift. destruct (f _) as [[a b]|]; reflexivity. Qed.
  Lemma keep_load {A} (f : W -> lres A * W) : (forall w, obs (snd (f w)) = obs w) -> keep (hload f).
  Proof. intros F e. unfold hload. pose proof (F (e_w e)) as X. destruct (f (e_w e)) as [[a| |] w]; exact X. Qed.
  Lemma keep_fatal {A} (f : W -> lres A * W) : (forall w, obs (snd (f w)) = obs w) -> keep (hload_fatal f).
  Proof. intros F e. unfold hload_fatal. pose proof (F (e_w e)) as X. destruct (f (e_w e)) as [[a| |] w]; exact X. Qed.

  Ltac kp := repeat first
    [ apply keep_ret | apply keep_fail | apply keep_rem | apply keep_res | apply keep_charge | apply keep_state | apply keep_lift
    | apply keep_load; intros; apply LK | apply keep_fatal; intros; apply LK
    | apply keep_bind; [|intros]
    | match goal with |- keep (let (_, _) := ?p in _) => destruct p end
    | match goal with |- keep (if ?b then _ else _) => destruct b end
    | match goal with |- keep (match ?p with pair _ _ => _ end) => destruct p end ].

  Lemma keep_acc a : keep (load_acc h g a).
  Proof. unfold load_acc. kp. Qed.
  Lemma keep_sload fr k : keep (hsload h g fk fr k).
  Proof. unfold hsload. kp. Qed.
  Lemma keep_call fr kind limit to value i il o ol : keep (hcall h g fk fr kind limit to value i il o ol).
  Proof. unfold hcall. cbv zeta. kp. Qed.
  Lemma keep_create fr m v c n s : keep (hcreate g fk fr m v c n s).
  Proof. intros e. unfold hcreate. destruct (builtin_create _ _ _ _ _ _ _ _ _ _ _ _) as [[ci b]|]; reflexivity. Qed.

  Lemma static_stop {A} fr (m : unit -> hm W A) e : fr_static fr = true -> hbind (non_static fr) m e = (HErr (HB EStatic), e).
  Proof. intros E. unfold hbind, non_static. rewrite E. reflexivity. Qed.

  Lemma keep_static fr o : fr_static fr = true -> keep (run_op h g fk fr o).
  Proof.
    intros E. destruct o; cbn [run_op]; apply keep_bind; try (intros; apply keep_ret).
    1,2,3: unfold hbalance, hextcodesize, hextcodehash; (apply keep_bind; [apply keep_acc|intros; apply keep_ret]).
    - unfold hextcodecopy. apply keep_bind; [apply keep_lift|]. intros [mo n']. apply keep_bind; [apply keep_acc|]. intros. apply keep_lift.
    - intros e. unfold hselfbalance. pose proof (lk_balance _ _ LK (e_w e) (fr_target fr)) as X. destruct (h_balance _ _ _) as [[v|] w]; exact X.
    - apply keep_sload.
    - intros e. unfold hsstore. rewrite static_stop by exact E. reflexivity.
    - intros e. reflexivity.
    - intros e. unfold htstore. rewrite static_stop by exact E. reflexivity.
    - intros e. unfold hlog, hbind, lift, log_n. rewrite E. reflexivity.
    - intros e. unfold hselfdestruct. rewrite static_stop by exact E. reflexivity.
    - apply keep_call.
    - apply keep_create.
  Qed.

  Context (transfer : W -> Z -> Z -> Z -> W) (TR : moves transfer obs).

  (** What is known of a frame started by a static one. *)
  Lemma hcall_shape fr kind limit to value i il o ol e ci e' :
    hcall h g fk fr kind limit to value i il o ol e = (HOk ci, e') ->
    ci_static ci = (fr_static fr || kind_eqb kind KStaticCall)%bool /\
    (kind = KCall -> fr_static fr = true -> ci_value ci = 0) /\
    (kind = KCallCode -> ci_caller ci = ci_target ci) /\
    (kind = KDelegateCall -> ci_apparent ci = true) /\
    (kind = KStaticCall -> ci_value ci = 0).
  Proof.
    unfold hcall. cbv zeta.
    destruct (kind_eqb kind KCall && fr_static fr && negb ((if match kind with KCall | KCallCode => true | _ => false end then value else 0) =? 0))%bool eqn:C; [discriminate|].
    unfold hbind, hret, remaining, reservoir. intros H.
    repeat match type of H with
      | (let (_, _) := ?p in _) _ = _ => destruct p
      | (let (_, _) := ?x in _) = _ => destruct x as [[?|?] ?]; [|discriminate H] end.
    inversion H; subst; cbn [ci_static ci_value ci_caller ci_target ci_apparent].
    destruct kind; cbn [kind_eqb andb] in *; repeat split; intros; try discriminate; try reflexivity.
    match goal with E : fr_static fr = true |- _ => rewrite E in C end. cbn [andb] in C. apply Bool.negb_false_iff, Z.eqb_eq in C. exact C.
  Qed.

  Lemma run_call fr o e ci e' : run_op h g fk fr o e = (HOk (ACall ci), e') ->
    exists kind limit to value i il ou ol, o = OCall kind limit to value i il ou ol /\
      hcall h g fk fr kind limit to value i il ou ol e = (HOk ci, e').
  Proof.
    destruct o; cbn [run_op]; unfold hmap, hbind, hret;
      match goal with |- (let (_, _) := ?x in _) = _ -> _ => destruct x as [[?|?] ?] eqn:X end;
      intros H; try discriminate H.
    inversion H; subst. repeat eexists. exact X.
  Qed.

  Lemma enter_static fr o e ci e' : fr_static fr = true -> run_op h g fk fr o e = (HOk (ACall ci), e') ->
    fr_static (child ci) = true /\ forall w, obs (enter transfer ci w) = obs w.
  Proof.
    intros E H. destruct (run_call _ _ _ _ _ H) as (kind & limit & to & value & i & il & ou & ol & -> & C).
    destruct (hcall_shape _ _ _ _ _ _ _ _ _ _ _ _ C) as (S1 & V & CC & D & SV). split.
    - cbn. rewrite S1, E. reflexivity.
    - intros w. unfold enter. destruct (ci_apparent ci) eqn:AP; [reflexivity|]. apply TR.
      destruct kind; [left; auto|right; auto| |left; auto]. specialize (D eq_refl). congruence.
  Qed.

  Lemma exec_static fr w w' : exec h g fk transfer obs fr w w' -> fr_static fr = true -> obs w' = obs w.
  Proof.
    induction 1 as [fr w|fr o e r e' w H NC NR X IH|fr o e ci e' w1 w2 w H X1 IH1 K X2 IH2|fr o e ci e' w2 w H X IH]; intros E.
    - reflexivity.
    - rewrite IH by exact E. pose proof (keep_static fr o E e) as K. rewrite H in K. exact K.
    - destruct (enter_static _ _ _ _ _ E H) as (CS & EN). rewrite IH2 by exact E.
      pose proof (keep_static fr o E e) as K'. rewrite H in K'. cbn [snd] in K'. destruct K as [->|K]; [|congruence].
      rewrite IH1 by exact CS. rewrite EN. exact K'.
    - exfalso. destruct o; cbn [run_op] in H; unfold hmap, hbind, hret in H;
        match type of H with (let (_, _) := ?x in _) = _ => destruct x as [[?|?] ?] eqn:Y end; try discriminate H.
      unfold hcreate, builtin_create in Y. rewrite E in Y. discriminate.
  Qed.
End Keeps.

(** ** The error for static frames. *)
Section NoStatic.
  Context {W : Type} (h : host W) (g : hgas) (fk : forks).
  Definition nost {A} (m : hm W A) : Prop := forall e e', m e <> (HErr (HB EStatic), e').
  Definition nosb {A} (x : bres A) : Prop := x <> BErr EStatic.

  Lemma nosb_bind {A B} (x : bres A) (f : A -> bres B) : nosb x -> (forall a, nosb (f a)) -> nosb (bbind x f).
  Proof. intros X F. destruct x as [a|y]; cbn; [apply F|]. intros E. apply X. congruence. Qed.
  Lemma nosb_ok {A} (a : A) : nosb (BOk a). Proof. discriminate. Qed.
  Lemma nosb_charge s c : nosb (charge_b s c). Proof. unfold charge_b, nosb. destruct (_ <? _); discriminate. Qed.
  Lemma nosb_usize v : nosb (to_usize v). Proof. unfold to_usize, nosb. destruct (_ <? _); discriminate. Qed.
  Lemma nosb_expand s o l : nosb (expand s o l). Proof. unfold expand, nosb. destruct (ensure_memory _ _ _); discriminate. Qed.
  Lemma nosb_slice s o l : nosb (slice s o l). Proof. unfold slice, nosb. destruct (_ <? _); discriminate. Qed.
  Lemma nosb_write s o l : nosb (write s o l). Proof. unfold write, nosb. destruct (_ <? _); discriminate. Qed.
  Lemma nosb_set s o d l x : nosb (set_data s o d l x).
  Proof. unfold set_data. destruct (_ <=? _); [apply nosb_write|]. apply nosb_bind; [apply nosb_write|intros; apply nosb_write]. Qed.
  Lemma nosb_state s r c : nosb (state_gas s r c).
  Proof. unfold state_gas. destruct (_ <=? _); [apply nosb_ok|]. apply nosb_bind; [apply nosb_charge|intros; apply nosb_ok]. Qed.
  Ltac nb := repeat first
    [ apply nosb_ok | apply nosb_charge | apply nosb_usize | apply nosb_expand | apply nosb_slice | apply nosb_set | apply nosb_state
    | apply nosb_bind; [|intros]
    | match goal with |- nosb (let (_, _) := ?p in _) => destruct p end
    | match goal with |- nosb (if ?b then _ else _) => destruct b end
    | match goal with |- nosb (BErr _) => discriminate end ].
  Lemma nosb_range s o l : nosb (frame_range s o l). Proof. unfold frame_range. nb. Qed.

  Lemma nost_bind {A B} (m : hm W A) (f : A -> hm W B) : nost m -> (forall a, nost (f a)) -> nost (hbind m f).
  Proof. intros M F e e'. unfold hbind. pose proof (M e) as X. destruct (m e) as [[a|x] e1]; [apply F|]. intros E. apply (X e1). congruence. Qed.
  Lemma nost_ret {A} (a : A) : nost (hret a). Proof. discriminate. Qed.
  Lemma nost_rem : nost remaining. Proof. discriminate. Qed.
  Lemma nost_res : nost reservoir. Proof. discriminate. Qed.
  Lemma nost_refund r : nost (hrefund r). Proof. discriminate. Qed.
  Lemma nost_refill r : nost (hrefill r). Proof. discriminate. Qed.
  Lemma nost_put f : nost (hput f). Proof. discriminate. Qed.
  Lemma nost_lift {A} (f : bst -> bres (A * bst)) : (forall s, nosb (f s)) -> nost (lift f).
  Proof. intros F e e'. unfold lift. pose proof (F (e_b e)) as X. destruct (f (e_b e)) as [[a b]|x]; [discriminate|]. intros E. apply X. congruence. Qed.
  Lemma nost_charge c : nost (hcharge c).
  Proof. intros e e'. unfold hcharge. pose proof (nosb_charge (e_b e) c) as X. destruct (charge_b _ _); [discriminate|]. intros E. apply X. congruence. Qed.
  Lemma nost_state c : nost (hstate_gas c).
  Proof. intros e e'. unfold hstate_gas. pose proof (nosb_state (e_b e) (e_res e) c) as X. destruct (state_gas _ _ _) as [[b r]|]; [discriminate|]. intros E. apply X. congruence. Qed.
  Lemma nost_load {A} (f : W -> lres A * W) : nost (hload f). Proof. intros e e'. unfold hload. destruct (f _) as [[a| |] w]; discriminate. Qed.
  Lemma nost_fatal {A} (f : W -> lres A * W) : nost (hload_fatal f). Proof. intros e e'. unfold hload_fatal. destruct (f _) as [[a| |] w]; discriminate. Qed.
  Lemma nost_fail {A} x : x <> HB EStatic -> nost (@hfail W A x).
  Proof. intros X e e' E. apply X. unfold hfail in E. congruence. Qed.
  Lemma nost_non fr : fr_static fr = false -> nost (non_static fr).
  Proof. intros X e e'. unfold non_static. rewrite X. discriminate. Qed.
  Ltac ns := repeat first
    [ apply nost_ret | apply nost_rem | apply nost_res | apply nost_refund | apply nost_refill | apply nost_put | apply nost_charge | apply nost_state
    | apply nost_load | apply nost_fatal | apply nost_fail; discriminate | apply nost_non; assumption
    | apply nost_lift; intros; first [apply nosb_range | nb]
    | apply nost_bind; [|intros]
    | match goal with |- nost (let (_, _) := ?p in _) => destruct p end
    | match goal with |- nost (if ?b then _ else _) => destruct b eqn:? end ].

  Lemma nost_acc a : nost (load_acc h g a). Proof. unfold load_acc. ns. Qed.

  Lemma nost_op fr o : (fr_static fr && forbidden o)%bool = false -> nost (run_op h g fk fr o).
  Proof.
    intros E. destruct o; cbn [run_op forbidden] in *; rewrite ?Bool.andb_true_r in E; apply nost_bind; try (intros; apply nost_ret).
    1,2,3: unfold hbalance, hextcodesize, hextcodehash; (apply nost_bind; [apply nost_acc|intros; apply nost_ret]).
    - unfold hextcodecopy. apply nost_bind; [ns|]. intros [mo n']. apply nost_bind; [apply nost_acc|]. intros. ns.
    - intros e e'. unfold hselfbalance. destruct (h_balance _ _ _) as [[v|] w]; discriminate.
    - unfold hsload. ns.
    - unfold hsstore. ns.
    - discriminate.
    - unfold htstore. ns.
    - unfold hlog. ns. unfold log_n. rewrite E. nb.
    - unfold hselfdestruct. ns.
    - unfold hcall. cbv zeta.
      destruct (kind_eqb kind KCall && fr_static fr && negb ((if match kind with KCall | KCallCode => true | _ => false end then value else 0) =? 0))%bool eqn:C.
      + exfalso. destruct kind; cbn [kind_eqb andb] in C; try discriminate. congruence.
      + clear E C. ns.
    - intros e e'. unfold hcreate.
      match goal with |- context [builtin_create ?a ?b ?c ?d ?x ?f ?s ?r ?v ?o ?l ?t] => assert (X : nosb (builtin_create a b c d x f s r v o l t)); [|destruct (builtin_create a b c d x f s r v o l t) as [[ci bb]|y]; [discriminate|intros Q; apply X; congruence]] end.
      unfold builtin_create. rewrite E. nb.
  Qed.
  Lemma static_op fr o e : (fr_static fr && forbidden o)%bool = true -> run_op h g fk fr o e = (HErr (HB EStatic), e).
  Proof.
    intros E. apply andb_prop in E. destruct E as [E F].
    destruct o; cbn [run_op forbidden] in *; try discriminate F; unfold hmap, hbind at 1.
    - unfold hsstore. rewrite static_stop by exact E. reflexivity.
    - unfold htstore. rewrite static_stop by exact E. reflexivity.
    - unfold hlog, hbind, lift, log_n. rewrite E. reflexivity.
    - unfold hselfdestruct. rewrite static_stop by exact E. reflexivity.
    - destruct kind; try discriminate F. unfold hcall. cbv zeta. rewrite E, F. reflexivity.
    - unfold hcreate, builtin_create. rewrite E. reflexivity.
  Qed.
End NoStatic.

(** [hcall] is [builtin_call] with the answer of the load. *)
Lemma hcall_builtin {W} (h : host W) g fk fr kind limit to value i il o ol e (load : Z -> option (Z * Z)) :
  (forall w gas a t c, fst (h_delegated h w gas a t c) = match load gas with Some x => LOk x | None => LDb end) ->
  match builtin_call (hg_calls g) (fk_tangerine fk) load fr kind (e_b e) (e_res e) limit (to_addr to) value i il o ol with
  | BOk (ci, b) => exists e', hcall h g fk fr kind limit to value i il o ol e = (HOk ci, e') /\ e_b e' = b /\ e_res e' = ci_reservoir ci
  | BErr x => exists e', hcall h g fk fr kind limit to value i il o ol e = (HErr (HB x), e')
  end.
Proof.
  intros L. unfold builtin_call, hcall. cbv zeta.
  set (v := if match kind with KCall | KCallCode => true | _ => false end then value else 0).
  destruct (kind_eqb kind KCall && fr_static fr && negb (v =? 0))%bool; [eexists; reflexivity|].
  assert (T : forall w s, exists lw, h_delegated h w (mm_gas (b_mem s)) (to_addr to) (negb (v =? 0)) (kind_eqb kind KCall)
              = (match load (mm_gas (b_mem s)) with Some x => LOk x | None => LDb end, lw)).
  { intros w s. pose proof (L w (mm_gas (b_mem s)) (to_addr to) (negb (v =? 0)) (kind_eqb kind KCall)) as LD.
    destruct (h_delegated _ _ _ _ _ _) as [ld lw]. cbn in LD. subst ld. eauto. }
  clear L. cbv beta iota zeta delta [hbind lift hret remaining reservoir hload hcharge hstate_gas e_gas].
  destruct (frame_range (e_b e) i il) as [[inp s1]|x]; cbn [bbind with_w with_b with_res e_b e_res e_w]; [|eexists; reflexivity].
  destruct (frame_range s1 o ol) as [[out s2]|x]; cbn [bbind with_w with_b with_res e_b e_res e_w]; [|eexists; reflexivity].
  revert T. generalize (negb (v =? 0)). intros tv T.
  assert (R : exists s3, (if tv then charge_b s2 (gp_transfer (hg_calls g)) else BOk s2) = BOk s3 \/ exists x, tv = true /\ charge_b s2 (gp_transfer (hg_calls g)) = BErr x).
  { destruct tv; [|eauto]. destruct (charge_b s2 _); [eauto|]. exists s2. eauto. }
  destruct R as (s3 & [R|(x & -> & R)]).
  2: { cbn [with_b e_b]. rewrite !R. cbn [bbind]. eexists; reflexivity. }
  rewrite R. cbn [bbind].
  match goal with |- context [?c (with_b (with_b e s1) s2)] => match c with (if tv then _ else _) => set (y := c (with_b (with_b e s1) s2)) end end.
  assert (Y : exists e3, y = (HOk tt, e3) /\ e_b e3 = s3 /\ e_res e3 = e_res e).
  { subst y. destruct tv; [cbn [with_b e_b]; rewrite R|injection R as <-]; eexists; (split; [reflexivity|split; reflexivity]). }
  destruct Y as (e3 & -> & <- & ER). destruct (T (e_w e3) (e_b e3)) as (lw & ->). clear T.
  destruct (load (mm_gas (b_mem (e_b e3)))) as [[dy st]|]; [|eexists; reflexivity].
  cbn [with_w with_b with_res e_b e_res e_w].
  destruct (charge_b (e_b e3) dy) as [s4|]; cbn [bbind with_w with_b with_res e_b e_res e_w]; [|eexists; reflexivity].
  rewrite ER.
  destruct (state_gas s4 (e_res e) st) as [[s5 r]|]; cbn [bbind with_w with_b with_res e_b e_res e_w]; [|eexists; reflexivity].
  match goal with |- context [charge_b s5 ?gl] => destruct (charge_b s5 gl) as [s6|] end; cbn [bbind with_w with_b with_res e_b e_res e_w]; [|eexists; reflexivity].
  eexists. split; [reflexivity|]. split; reflexivity.
Qed.

(** ** Cold items. *)
Lemma charge_le (s : bst) c : c <= mm_gas (b_mem s) ->
  charge_b s c = BOk (mkB (mkMem (mm_gas (b_mem s) - c) (mm_words (b_mem s)) (mm_paid (b_mem s))) (b_data s)).
Proof. intros H. unfold charge_b. destruct (Z.ltb_spec (mm_gas (b_mem s)) c); [lia|reflexivity]. Qed.
Lemma charge_gt (s : bst) c : mm_gas (b_mem s) < c -> charge_b s c = BErr EOutOfGas.
Proof. intros H. unfold charge_b. destruct (Z.ltb_spec (mm_gas (b_mem s)) c); [reflexivity|lia]. Qed.
Lemma hcharge_le {W} (e : est W) c : c <= e_gas e -> hcharge c e = (HOk tt, paid e c (e_w e)).
Proof. intros H. unfold hcharge. rewrite charge_le by exact H. reflexivity. Qed.
Lemma hcharge_gt {W} (e : est W) c : e_gas e < c -> hcharge c e = (HErr (HB EOutOfGas), e).
Proof. intros H. unfold hcharge. rewrite charge_gt by exact H. reflexivity. Qed.
Lemma hstate_spec {W} (e : est W) s : 0 <= s -> 0 <= e_res e -> 0 <= e_gas e ->
  hstate_gas s e = if from_gas e s <=? e_gas e
                   then (HOk tt, mkE (e_b (paid e (from_gas e s) (e_w e))) (Z.max 0 (e_res e - s)) (e_refund e) (e_w e))
                   else (HErr (HB EOutOfGas), e).
Proof.
  intros S0 R0 G0. unfold hstate_gas, state_gas, from_gas. destruct (Z.leb_spec s (e_res e)).
  - rewrite Z.max_l by lia. rewrite Z.max_r by lia. destruct (Z.leb_spec 0 (e_gas e)); [|lia].
    unfold paid, e_gas, with_res, with_b. cbn. rewrite Z.sub_0_r. destruct (e_b e) as [[a b c] d]; reflexivity.
  - rewrite (Z.max_r 0 (s - e_res e)) by lia. rewrite (Z.max_l 0 (e_res e - s)) by lia. destruct (Z.leb_spec (s - e_res e) (e_gas e)).
    + rewrite charge_le by assumption. reflexivity.
    + rewrite charge_gt by assumption. reflexivity.
Qed.
Lemma paid_0 {W} (e : est W) w : paid e 0 w = with_w e w.
Proof. unfold paid, e_gas, with_w. rewrite Z.sub_0_r. destruct e as [[[a b c] d] r f w0]; reflexivity. Qed.

(** A load told to skip the cold when they cannot be paid for, then paid for. *)
Lemma load_priced {W A} (f : W -> bool -> lres (A * bool) * W) cost (e : est W) : skips f -> 0 <= e_gas e ->
  priced (run gas <- remaining; run (a, cold) <- hload (fun w => f w (gas <? cost)); run _ <- (if cold : bool then hcharge cost else hret tt); hret a)
         e (f (e_w e) false) (fun cold => if cold then cost else 0).
Proof.
  intros SK G0. pose proof (SK (e_w e)) as SW. unfold priced. unfold hbind, remaining, hload, hret.
  destruct (f (e_w e) false) as [[[a [|]]| |] w] eqn:F0.
  - destruct (Z.leb_spec cost (e_gas e)).
    + destruct (Z.ltb_spec (e_gas e) cost); [lia|]. rewrite F0. rewrite hcharge_le by exact H. reflexivity.
    + destruct (Z.ltb_spec (e_gas e) cost); [|lia]. destruct (f (e_w e) true) as [[x| |] w']; try discriminate SW. eexists. reflexivity.
  - destruct (Z.leb_spec 0 (e_gas e)); [|lia]. rewrite paid_0. destruct (e_gas e <? cost); [rewrite SW|rewrite F0]; reflexivity.
  - destruct SW.
  - destruct (e_gas e <? cost).
    + destruct (f (e_w e) true) as [[x| |] w']; [destruct (SW x eq_refl)|eauto|eauto].
    + rewrite F0. eauto.
Qed.

Lemma sload_priced {W} (h : host W) g fk fr k e : skips (fun w => h_sload h w (fr_target fr) k) -> 0 <= e_gas e ->
  priced (hsload h g fk fr k) e (h_sload h (e_w e) (fr_target fr) k false) (fun cold => if fk_berlin fk && cold then hg_cold_slot g else 0).
Proof.
  intros SK G0. unfold hsload. destruct (fk_berlin fk); cbn [andb].
  - exact (load_priced (fun w => h_sload h w (fr_target fr) k) _ e SK G0).
  - unfold priced, hbind, hload_fatal, hret. pose proof (SK (e_w e)) as SW.
    destruct (h_sload h (e_w e) (fr_target fr) k false) as [[[v c]| |] w]; [|eauto|eauto].
    destruct (Z.leb_spec 0 (e_gas e)); [|lia]. rewrite paid_0. reflexivity.
Qed.
Lemma acc_priced {W} (h : host W) g a e : skips (fun w => h_account h w a) -> 0 <= e_gas e ->
  priced (load_acc h g a) e (h_account h (e_w e) a false) (fun cold => if cold then hg_cold_account g else 0).
Proof. intros SK G0. exact (load_priced (fun w => h_account h w a) _ e SK G0). Qed.

Lemma bind_ok {W A B} (m : hm W A) (f : A -> hm W B) e a e' : m e = (HOk a, e') -> hbind m f e = f a e'.
Proof. intros H. unfold hbind. rewrite H. reflexivity. Qed.
Lemma bind_err {W A B} (m : hm W A) (f : A -> hm W B) e x e' : m e = (HErr x, e') -> hbind m f e = (HErr x, e').
Proof. intros H. unfold hbind. rewrite H. reflexivity. Qed.

(** A load told to skip the cold when [cost] is missing, whose price [price] is paid in full afterwards. *)
Lemma load_cases {W A} (f : W -> bool -> lres (A * bool) * W) cost (e : est W) (skip_on : bool) : skips f ->
  let m := if skip_on then (run gas <- remaining; hload (fun w => f w (gas <? cost))) else hload_fatal (fun w => f w false) in
  match f (e_w e) false with
  | (LOk (a, cold), w) =>
    m e = (HOk (a, cold), with_w e w) \/ (skip_on = true /\ cold = true /\ e_gas e < cost /\ exists e', m e = (HErr (HB EOutOfGas), e'))
  | _ => exists x e', m e = (HErr (HB x), e')
  end.
Proof.
  intros SK m. subst m. pose proof (SK (e_w e)) as SW. destruct skip_on.
  - unfold hbind, remaining, hload. destruct (Z.ltb_spec (e_gas e) cost) as [L|L].
    + destruct (f (e_w e) false) as [[[a [|]]| |] w].
      * right. repeat split; auto. destruct (f (e_w e) true) as [[x| |] w']; try discriminate SW. eauto.
      * left. rewrite SW. reflexivity.
      * destruct SW.
      * destruct (f (e_w e) true) as [[x| |] w']; [destruct (SW x eq_refl)|eauto|eauto].
    + destruct (f (e_w e) false) as [[[a c]| |] w]; eauto.
  - unfold hload_fatal. destruct (f (e_w e) false) as [[[a c]| |] w]; eauto.
Qed.

(** Paying state gas, refilling and refunding, after [c] has been paid. *)
Lemma tail_pays {W} (e : est W) c w (on : bool) s refill refund (fin : hm W unit) out :
  0 <= c -> 0 <= s -> 0 <= refill -> 0 <= e_res e -> c <= e_gas e ->
  (forall e', fin e' = (out, with_refund e' (e_refund e' + refund))) ->
  let s' := if on then s else 0 in
  let r := (run _ <- (if on then (run _ <- hstate_gas s; if 0 <? refill then hrefill refill else hret tt) else hret tt); fin) (paid e c w) in
  if c + from_gas e s' <=? e_gas e then r = (out, settled e c s' (if on then refill else 0) refund w) else exists e', r = (HErr (HB EOutOfGas), e').
Proof.
  intros C0 S0 F0 R0 CG FIN s' r. subst s' r. destruct on.
  - unfold hbind. rewrite hstate_spec; [|exact S0|exact R0|unfold paid, e_gas; cbn; unfold e_gas in CG; lia].
    change (from_gas (paid e c w) s) with (from_gas e s). change (e_gas (paid e c w)) with (e_gas e - c).
    destruct (Z.leb_spec (from_gas e s) (e_gas e - c)); (destruct (Z.leb_spec (c + from_gas e s) (e_gas e)); try lia).
    + assert (P : e_b (paid (paid e c w) (from_gas e s) (e_w (paid e c w))) = e_b (paid e (c + from_gas e s) w)) by (unfold paid, e_gas; cbn; do 2 f_equal; lia).
      rewrite P. unfold settled. destruct (Z.ltb_spec 0 refill); unfold hrefill, hret, with_res; rewrite FIN; unfold with_refund; cbn [e_b e_res e_refund e_w paid].
      * reflexivity.
      * replace (Z.max 0 (e_res e - s) + refill) with (Z.max 0 (e_res e - s)) by lia. reflexivity.
    + eauto.
  - assert (Q : from_gas e 0 = 0) by (unfold from_gas; lia). rewrite Q, Z.add_0_r. destruct (Z.leb_spec c (e_gas e)); [|lia].
    unfold hbind, hret. rewrite FIN. unfold settled. rewrite Q, !Z.add_0_r, Z.sub_0_r, Z.max_r by exact R0. reflexivity.
Qed.

Lemma sstore_stored {W} (h : host W) g fk fr key value e :
  schedule g fk -> skips (fun w => h_sstore h w (fr_target fr) key value) -> fr_static fr = false -> 0 <= e_res e ->
  fk_istanbul fk = false \/ hg_stipend g < e_gas e ->
  stored h g fk fr key value e (hsstore h g fk fr key value e).
Proof.
  intros SC SK NS R0 SE. unfold hsstore.
  rewrite (bind_ok (non_static fr) _ e tt e) by (unfold non_static; rewrite NS; reflexivity).
  rewrite (bind_ok remaining _ e (e_gas e) e) by reflexivity.
  assert (B : (fk_istanbul fk && (e_gas e <=? hg_stipend g))%bool = false).
  { destruct SE as [->|SE]; [reflexivity|]. destruct (Z.leb_spec (e_gas e) (hg_stipend g)); [lia|]. apply Bool.andb_false_r. }
  rewrite B. clear B. pose proof (sc_static g fk SC) as ST0.
  unfold stored.
  destruct (Z_le_gt_dec (hg_sstore_static g) (e_gas e)) as [L|L].
  2: { rewrite (bind_err (hcharge _) _ e (HB EOutOfGas) e) by (apply hcharge_gt; lia).
       destruct (h_sstore h (e_w e) (fr_target fr) key value false) as [[[[o p] c]| |] w]; [|eauto|eauto].
       cbv zeta. pose proof (sc_dyn g fk SC (fk_istanbul fk) (o, p, value) c).
       match goal with |- if ?a + from_gas e ?s <=? _ then _ else _ => assert (0 <= from_gas e s) by (unfold from_gas; lia); destruct (Z.leb_spec (a + from_gas e s) (e_gas e)) end; [lia|eauto]. }
  rewrite (bind_ok (hcharge _) _ e tt (paid e (hg_sstore_static g) (e_w e))) by (apply hcharge_le; exact L).
  set (e1 := paid e (hg_sstore_static g) (e_w e)).
  pose proof (load_cases (fun w => h_sstore h w (fr_target fr) key value) (hg_cold_slot g) e1 (fk_berlin fk) SK) as LC. cbv zeta in LC.
  change (e_w e1) with (e_w e) in LC.
  destruct (h_sstore h (e_w e) (fr_target fr) key value false) as [[[[o p] c]| |] w] eqn:HS.
  2,3: destruct LC as (x & e' & LC); rewrite (bind_err _ _ e1 (HB x) e') by exact LC; eauto.
  cbv zeta. set (v := (o, p, value)). pose proof (sc_dyn g fk SC (fk_istanbul fk) v c) as D0.
  set (s := if fk_8037 fk then hg_sstore_state g v else 0). assert (FG : 0 <= from_gas e s) by (unfold from_gas; lia).
  assert (EG1 : e_gas e1 = e_gas e - hg_sstore_static g) by reflexivity.
  destruct LC as [LC|(BE & -> & LT & e' & LC)].
  - rewrite (bind_ok _ _ e1 (o, p, c) (with_w e1 w)) by exact LC. cbv beta iota. fold v.
    destruct (Z_le_gt_dec (hg_sstore_dyn g (fk_istanbul fk) v c) (e_gas e1)) as [L2|L2].
    + rewrite (bind_ok (hcharge _) _ (with_w e1 w) tt (paid e (hg_sstore_static g + hg_sstore_dyn g (fk_istanbul fk) v c) w)).
      2: { rewrite hcharge_le by exact L2. unfold paid, e_gas, e1, with_w. cbn. do 4 f_equal. unfold e_gas. lia. }
      apply (tail_pays e (hg_sstore_static g + hg_sstore_dyn g (fk_istanbul fk) v c) w (fk_8037 fk) (hg_sstore_state g v) (hg_sstore_refill g v));
        [lia|exact (sc_state g fk SC v)|exact (sc_refill g fk SC v)|exact R0|lia|reflexivity].
    + rewrite (bind_err (hcharge _) _ (with_w e1 w) (HB EOutOfGas) (with_w e1 w)) by (apply hcharge_gt; change (e_gas (with_w e1 w)) with (e_gas e1); lia).
      destruct (Z.leb_spec (hg_sstore_static g + hg_sstore_dyn g (fk_istanbul fk) v c + from_gas e s) (e_gas e)); [lia|eauto].
  - rewrite (bind_err _ _ e1 (HB EOutOfGas) e') by exact LC.
    pose proof (sc_dyn_cold g fk SC (fk_istanbul fk) v BE).
    destruct (Z.leb_spec (hg_sstore_static g + hg_sstore_dyn g (fk_istanbul fk) v true + from_gas e s) (e_gas e)); [lia|eauto].
Qed.

Lemma sd_destroyed_ok {W} (h : host W) g fk fr target e :
  schedule g fk -> skips (fun w => h_selfdestruct h w (fr_target fr) (target mod 2 ^ 160)) -> fr_static fr = false -> 0 <= e_res e ->
  destroyed h g fk fr target e (hselfdestruct h g fk fr target e).
Proof.
  intros SC SK NS R0. unfold hselfdestruct, to_addr.
  rewrite (bind_ok (non_static fr) _ e tt e) by (unfold non_static; rewrite NS; reflexivity).
  unfold destroyed.
  pose proof (load_cases (fun w => h_selfdestruct h w (fr_target fr) (target mod 2 ^ 160)) (hg_sd_cold g) e true SK) as LC. cbv zeta iota in LC.
  rewrite (bind_ok remaining _ e (e_gas e) e) in * by reflexivity.
  destruct (h_selfdestruct h (e_w e) (fr_target fr) (target mod 2 ^ 160) false) as [[[i c]| |] w].
  2,3: destruct LC as (x & e' & LC); rewrite (bind_err _ _ e (HB x) e') by exact LC; exists (HB x), e'; split; [reflexivity|discriminate].
  set (new := if fk_spurious fk then (sd_had_value i && negb (sd_target_exists i))%bool else negb (sd_target_exists i)).
  exists new. split.
  { subst new. destruct (fk_spurious fk), (sd_had_value i), (sd_target_exists i); cbn; intuition congruence. }
  cbv zeta. set (s := if (fk_8037 fk && new)%bool then hg_new_account_state g else 0). assert (FG : 0 <= from_gas e s) by (unfold from_gas; lia).
  destruct LC as [LC|(_ & -> & LT & e' & LC)].
  - rewrite (bind_ok _ _ e (i, c) (with_w e w)) by exact LC. cbv beta iota. fold new.
    destruct (Z_le_gt_dec (hg_sd_cost g new c) (e_gas e)) as [L2|L2].
    + rewrite (bind_ok (hcharge _) _ (with_w e w) tt (paid e (hg_sd_cost g new c) w)) by (rewrite hcharge_le by exact L2; reflexivity).
      pose proof (tail_pays e (hg_sd_cost g new c) w (fk_8037 fk && new) (hg_new_account_state g) 0 (if sd_destroyed i then 0 else hg_sd_refund g)
                    (run _ <- (if sd_destroyed i then hret tt else hrefund (hg_sd_refund g)); hfail HDestruct) (HErr HDestruct)) as T.
      cbv zeta in T. fold s in T.
      specialize (T (proj2 (sc_sd g fk SC) new c) (sc_sd_state g fk SC) (Z.le_refl 0) R0 L2).
      assert (FIN : forall e' : est W, (run _ <- (if sd_destroyed i then hret tt else hrefund (hg_sd_refund g)); hfail HDestruct) e' =
                      (@HErr unit HDestruct, with_refund e' (e_refund e' + (if sd_destroyed i then 0 else hg_sd_refund g)))).
      { intros e'. unfold hbind, hret, hrefund, hfail. destruct (sd_destroyed i); [|reflexivity]. rewrite Z.add_0_r. destruct e'; reflexivity. }
      specialize (T FIN).
      replace (if (fk_8037 fk && new)%bool then 0 else 0) with 0 in T by (destruct (fk_8037 fk && new)%bool; reflexivity).
      destruct (fk_8037 fk && new)%bool; [|exact T]. unfold hbind in T |- *. cbn [Z.ltb Z.compare] in T.
      destruct (hstate_gas (hg_new_account_state g) (paid e (hg_sd_cost g new c) w)) as [[[]|x] e2]; exact T.
    + rewrite (bind_err (hcharge _) _ (with_w e w) (HB EOutOfGas) (with_w e w)) by (apply hcharge_gt; change (e_gas (with_w e w)) with (e_gas e); lia).
      destruct (Z.leb_spec (hg_sd_cost g new c + from_gas e s) (e_gas e)); [lia|eauto].
  - rewrite (bind_err _ _ e (HB EOutOfGas) e') by exact LC.
    pose proof (sc_sd_cold g fk SC new).
    destruct (Z.leb_spec (hg_sd_cost g new true + from_gas e s) (e_gas e)); [lia|eauto].
Qed.
