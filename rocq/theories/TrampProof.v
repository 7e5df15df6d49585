(** Proofs about the trampolines. *)
From Verif Require Import TrampSpec.
Open Scope Z_scope.

(** ** Memory. *)
Lemma get_ext n : forall m m' a, (forall x, a <= x < a + Z.of_nat n -> m' x = m x) -> get n m' a = get n m a.
Proof.
  induction n as [|n IH]; intros m m' a H; cbn [get]; [reflexivity|].
  rewrite (H a) by lia. rewrite (IH m m' (a + 1)); [reflexivity|]. intros x Hx. apply H. lia.
Qed.
Lemma load_same m m' lo hi a : same m m' lo hi -> lo <= a -> a + 8 <= hi -> load64 m' a = load64 m a.
Proof. intros HS H1 H2. apply get_ext. intros x Hx. apply HS. cbn in Hx. lia. Qed.
Lemma store_other m a v x : ~ a <= x < a + 8 -> store64 m a v x = m x.
Proof.
  intros H. unfold store64. destruct (Z.leb_spec a x); cbn [andb]; [|reflexivity].
  destruct (Z.ltb_spec x (a + 8)); [exfalso; lia | reflexivity].
Qed.
Lemma load_store_other m a v b : a + 8 <= b \/ b + 8 <= a -> load64 (store64 m a v) b = load64 m b.
Proof. intros H. apply get_ext. intros x Hx. apply store_other. cbn in Hx. lia. Qed.

Lemma get_digits m : forall n a v, 0 <= v -> (forall i, 0 <= i < Z.of_nat n -> m (a + i) = v / 256 ^ i mod 256) -> get n m a = v mod 256 ^ Z.of_nat n.
Proof.
  induction n as [|n IH]; intros a v Hv H; cbn [get].
  - cbn. rewrite Z.mod_1_r. reflexivity.
  - rewrite (IH (a + 1) (v / 256)).
    + replace (m a) with (v mod 256) by (rewrite <- (Z.add_0_r a), H by lia; rewrite Z.pow_0_r, Z.div_1_r; reflexivity).
      rewrite Nat2Z.inj_succ, Z.pow_succ_r by lia. rewrite Z.rem_mul_r; [reflexivity | lia | apply Z.pow_pos_nonneg; lia].
    + apply Z.div_pos; lia.
    + intros i Hi. rewrite <- Z.add_assoc. rewrite H by lia. rewrite Z.pow_add_r by lia. rewrite Z.pow_1_r.
      rewrite Z.div_div by (try apply Z.pow_pos_nonneg; lia). reflexivity.
Qed.
Lemma load_store m a v : is_u64 v -> load64 (store64 m a v) a = v.
Proof.
  intros Hv. unfold is_u64, W64 in Hv. unfold load64. rewrite (get_digits _ 8 a v); [|lia|].
  - change (256 ^ Z.of_nat 8) with (2 ^ 64). apply Z.mod_small. exact Hv.
  - intros i Hi. cbn in Hi. unfold store64.
    destruct (Z.leb_spec a (a + i)); [|lia]. destruct (Z.ltb_spec (a + i) (a + 8)); [|lia]. cbn [andb].
    replace (a + i - a) with i by lia. reflexivity.
Qed.

Ltac loads := repeat (first [ rewrite load_store by (assumption || auto) | rewrite load_store_other by lia ]).

(** ** x86-64. *)
Section X86.
  Context (back exit_sp exit_result size : Z).

  Lemma x_entry_state s0 : x_called size s0 -> 0 <= exit_sp -> exit_sp + 8 <= size ->
    let s1 := xrun back (x_entry exit_sp) s0 in let sp := xr s0 RSP in
    xpc s1 = xr s0 RCX /\ xr s1 RSP = sp - 64 /\ (forall r, r <> RSP -> xr s1 r = xr s0 r)
    /\ xm s1 = store64 (store64 (store64 (store64 (store64 (store64 (store64 (store64 (xm s0) (sp - 8) (xr s0 RBP)) (sp - 16) (xr s0 RBX))
                 (sp - 24) (xr s0 R12)) (sp - 32) (xr s0 R13)) (sp - 40) (xr s0 R14)) (sp - 48) (xr s0 R15)) (xr s0 RDI + exit_sp) (sp - 48)) (sp - 64) back.
  Proof.
    intros (HU & H1 & H2 & H3 & H4 & H5) Ho1 Ho2 s1 sp. subst s1.
    pose proof (HU RDI) as Hdi. unfold is_u64 in Hdi.
    unfold xrun, x_entry. cbn [fold_left xstep xset xmem xjmp xr xm xpc xreg_beq]. fold sp. fold sp in H1, H2, H3, H5.
    assert (E1 : (sp - 8) mod W64 = sp - 8) by (apply Z.mod_small; unfold W64 in *; lia).
    assert (E2 : (sp - 8 - 8) mod W64 = sp - 16) by (rewrite Z.mod_small; unfold W64 in *; lia).
    assert (E3 : (sp - 16 - 8) mod W64 = sp - 24) by (rewrite Z.mod_small; unfold W64 in *; lia).
    assert (E4 : (sp - 24 - 8) mod W64 = sp - 32) by (rewrite Z.mod_small; unfold W64 in *; lia).
    assert (E5 : (sp - 32 - 8) mod W64 = sp - 40) by (rewrite Z.mod_small; unfold W64 in *; lia).
    assert (E6 : (sp - 40 - 8) mod W64 = sp - 48) by (rewrite Z.mod_small; unfold W64 in *; lia).
    assert (E7 : (sp - 48 - 8) mod W64 = sp - 56) by (rewrite Z.mod_small; unfold W64 in *; lia).
    assert (E8 : (sp - 56 - 8) mod W64 = sp - 64) by (rewrite Z.mod_small; unfold W64 in *; lia).
    assert (E9 : (xr s0 RDI + exit_sp) mod W64 = xr s0 RDI + exit_sp) by (rewrite Z.mod_small; unfold W64 in *; lia).
    rewrite ?E1, ?E2, ?E3, ?E4, ?E5, ?E6, ?E7, ?E8, ?E9.
    split; [reflexivity|]. split; [reflexivity|]. split; [|reflexivity].
    intros r Hr. destruct r; try reflexivity. congruence.
  Qed.

  (** The words saved on the stack, and the [exit_sp] field. *)
  Lemma x_entry_saved s0 : x_called size s0 -> 0 <= exit_sp -> exit_sp + 8 <= size -> is_u64 back ->
    let m := xm (xrun back (x_entry exit_sp) s0) in let sp := xr s0 RSP in
    load64 m (sp - 48) = xr s0 R15 /\ load64 m (sp - 40) = xr s0 R14 /\ load64 m (sp - 32) = xr s0 R13 /\ load64 m (sp - 24) = xr s0 R12
    /\ load64 m (sp - 16) = xr s0 RBX /\ load64 m (sp - 8) = xr s0 RBP /\ load64 m sp = load64 (xm s0) sp
    /\ load64 m (xr s0 RDI + exit_sp) = sp - 48 /\ load64 m (sp - 64) = back
    /\ only (xm s0) m (sp - 64) sp (xr s0 RDI + exit_sp) (xr s0 RDI + exit_sp + 8).
  Proof.
    intros HC Ho1 Ho2 Hb m sp. destruct (x_entry_state s0 HC Ho1 Ho2) as (_ & _ & _ & E).
    destruct HC as (HU & H1 & H2 & H3 & H4 & H5). unfold m. rewrite E. fold sp. fold sp in H1, H2, H3, H5.
    assert (Hs : is_u64 (sp - 48)) by (unfold is_u64; lia).
    assert (Hdi := HU RDI). unfold is_u64 in Hdi.
    repeat (split; [loads; reflexivity|]).
    intros x Hx Hy. rewrite !store_other by lia. reflexivity.
  Qed.

  (** The pops, from the stack pointer saved on entry. *)
  Lemma x_pops s0 s : x_called size s0 -> xr s RSP = xr s0 RSP - 48 ->
    let sp := xr s0 RSP in let s' := xrun back [XPop R15; XPop R14; XPop R13; XPop R12; XPop RBX; XPop RBP; XRet] s in
    xpc s' = load64 (xm s) sp /\ xr s' RSP = sp + 8 /\ xr s' R15 = load64 (xm s) (sp - 48) /\ xr s' R14 = load64 (xm s) (sp - 40)
    /\ xr s' R13 = load64 (xm s) (sp - 32) /\ xr s' R12 = load64 (xm s) (sp - 24) /\ xr s' RBX = load64 (xm s) (sp - 16)
    /\ xr s' RBP = load64 (xm s) (sp - 8) /\ xr s' RAX = xr s RAX /\ xm s' = xm s.
  Proof.
    intros (HU & H1 & H2 & H3 & H4 & H5) HS sp s'. subst s'.
    unfold xrun. cbn [fold_left xstep xset xmem xjmp xr xm xpc xreg_beq]. rewrite HS. fold sp. fold sp in H1, H2, H3, H5.
    assert (E1 : (sp - 48 + 8) mod W64 = sp - 40) by (rewrite Z.mod_small; unfold W64 in *; lia).
    assert (E2 : (sp - 40 + 8) mod W64 = sp - 32) by (rewrite Z.mod_small; unfold W64 in *; lia).
    assert (E3 : (sp - 32 + 8) mod W64 = sp - 24) by (rewrite Z.mod_small; unfold W64 in *; lia).
    assert (E4 : (sp - 24 + 8) mod W64 = sp - 16) by (rewrite Z.mod_small; unfold W64 in *; lia).
    assert (E5 : (sp - 16 + 8) mod W64 = sp - 8) by (rewrite Z.mod_small; unfold W64 in *; lia).
    assert (E6 : (sp - 8 + 8) mod W64 = sp) by (rewrite Z.mod_small; unfold W64 in *; lia).
    assert (E7 : (sp + 8) mod W64 = sp + 8) by (rewrite Z.mod_small; unfold W64 in *; lia).
    rewrite ?E1, ?E2, ?E3, ?E4, ?E5, ?E6, ?E7. repeat split.
  Qed.
End X86.

(** ** AArch64. *)
Section A64.
  Context (back exit_sp exit_result size : Z).

  Definition a_saved (m : bytes) (sp : Z) (s0 : astate) : Prop :=
    load64 m sp = ar s0 (X 29) /\ load64 m (sp + 8) = ar s0 (X 30)
    /\ load64 m (sp + 16) = ar s0 (X 19) /\ load64 m (sp + 24) = ar s0 (X 20) /\ load64 m (sp + 32) = ar s0 (X 21)
    /\ load64 m (sp + 40) = ar s0 (X 22) /\ load64 m (sp + 48) = ar s0 (X 23) /\ load64 m (sp + 56) = ar s0 (X 24)
    /\ load64 m (sp + 64) = ar s0 (X 25) /\ load64 m (sp + 72) = ar s0 (X 26) /\ load64 m (sp + 80) = ar s0 (X 27)
    /\ load64 m (sp + 88) = ar s0 (X 28) /\ load64 m (sp + 96) = ar s0 (D 8) /\ load64 m (sp + 104) = ar s0 (D 9)
    /\ load64 m (sp + 112) = ar s0 (D 10) /\ load64 m (sp + 120) = ar s0 (D 11) /\ load64 m (sp + 128) = ar s0 (D 12)
    /\ load64 m (sp + 136) = ar s0 (D 13) /\ load64 m (sp + 144) = ar s0 (D 14) /\ load64 m (sp + 152) = ar s0 (D 15).

  Lemma a_entry_state s0 : a_called size s0 -> 0 <= exit_sp -> exit_sp + 8 <= size ->
    let s1 := arun back (a_entry exit_sp) s0 in let sp := ar s0 SP - 160 in
    apc s1 = ar s0 (X 3) /\ ar s1 SP = sp /\ ar s1 (X 30) = back
    /\ (forall r, r <> SP -> r <> X 9 -> r <> X 30 -> ar s1 r = ar s0 r)
    /\ a_saved (am s1) sp s0 /\ load64 (am s1) (ar s0 (X 0) + exit_sp) = sp
    /\ only (am s0) (am s1) sp (ar s0 SP) (ar s0 (X 0) + exit_sp) (ar s0 (X 0) + exit_sp + 8).
  Proof.
    intros (HU & H1 & H2 & H3 & H4 & H5) Ho1 Ho2 s1 sp. subst s1.
    pose proof (HU (X 0)) as Hdi. unfold is_u64 in Hdi.
    assert (Es : ar s0 SP = sp + 160) by (unfold sp; lia).
    assert (Hsp : is_u64 sp) by (unfold is_u64; lia).
    assert (E0 : (ar s0 SP + -160) mod W64 = sp) by (rewrite Z.mod_small; unfold W64 in *; lia).
    assert (E9 : (ar s0 (X 0) + exit_sp) mod W64 = ar s0 (X 0) + exit_sp) by (rewrite Z.mod_small; unfold W64 in *; lia).
    assert (EK : forall k, 0 <= k <= 144 -> (sp + k) mod W64 = sp + k) by (intros k Hk; rewrite Z.mod_small; unfold W64 in *; lia).
    unfold arun, a_entry. cbn [fold_left astep aset amem ajmp ar am apc areg_beq internal_nat_beq].
    rewrite !E0. rewrite !EK by lia. rewrite !E9. rewrite Es.
    replace (sp + 16 + 8) with (sp + 24) by lia. replace (sp + 32 + 8) with (sp + 40) by lia. replace (sp + 48 + 8) with (sp + 56) by lia.
    replace (sp + 64 + 8) with (sp + 72) by lia. replace (sp + 80 + 8) with (sp + 88) by lia. replace (sp + 96 + 8) with (sp + 104) by lia.
    replace (sp + 112 + 8) with (sp + 120) by lia. replace (sp + 128 + 8) with (sp + 136) by lia. replace (sp + 144 + 8) with (sp + 152) by lia.
    split; [reflexivity|]. split; [reflexivity|]. split; [reflexivity|]. split.
    { intros r HA HB HD. destruct (areg_beq r (X 30)) eqn:F1; [exfalso; apply HD, (internal_areg_dec_bl _ _ F1)|].
      destruct (areg_beq r (X 9)) eqn:F2; [exfalso; apply HB, (internal_areg_dec_bl _ _ F2)|].
      destruct (areg_beq r SP) eqn:F3; [exfalso; apply HA, (internal_areg_dec_bl _ _ F3) | reflexivity]. }
    split; [|split].
    - unfold a_saved. repeat split; loads; reflexivity.
    - loads. reflexivity.
    - intros x Hx Hy. rewrite !store_other by lia. reflexivity.
  Qed.

  Lemma a_leave_state s0 s : a_called size s0 -> let sp := ar s0 SP - 160 in ar s SP = sp -> a_saved (am s) sp s0 ->
    let s' := arun back a_leave s in
    a_returned s0 s' /\ ar s' (X 0) = ar s (X 0) /\ am s' = am s.
  Proof.
    intros (HU & H1 & H2 & H3 & H4 & H5) sp HS HV s'. subst s'.
    assert (Es : ar s0 SP = sp + 160) by (unfold sp; lia).
    assert (E0 : (sp + 160) mod W64 = sp + 160) by (rewrite Z.mod_small; unfold W64 in *; lia).
    assert (EK : forall k, 0 <= k <= 144 -> (sp + k) mod W64 = sp + k) by (intros k Hk; rewrite Z.mod_small; unfold W64 in *; lia).
    unfold arun, a_leave. cbn [fold_left astep aset amem ajmp ar am apc areg_beq internal_nat_beq].
    rewrite HS. rewrite !EK by lia. rewrite !E0. rewrite <- !Z.add_assoc. cbn [Z.add Pos.add Pos.succ Pos.add_carry].
    unfold a_saved in HV.
    destruct HV as (V0 & V1 & V2 & V3 & V4 & V5 & V6 & V7 & V8 & V9 & V10 & V11 & V12 & V13 & V14 & V15 & V16 & V17 & V18 & V19).
    split; [|split; reflexivity]. unfold a_returned. cbn [ar apc areg_beq internal_nat_beq]. split; [exact V1|]. split; [symmetry; exact Es|].
    intros r Hr. cbn in Hr.
    repeat (destruct Hr as [<- | Hr]; [cbn [areg_beq internal_nat_beq]; assumption|]). destruct Hr.
  Qed.
End A64.
