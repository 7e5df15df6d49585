(** C60: the trampolines. However compiled code ends, by returning or by a builtin leaving through [revmc_exit] from
    any depth and with any register contents, the caller of [revmc_entry] finds what its ABI promises. *)
From Verif Require Export TrampSpec.
From Verif Require Import TrampProof.
Open Scope Z_scope.

(** What the compiled code finds: it is entered by an ABI call with the three arguments, an aligned stack, and only
    the stack below the caller and the [exit_sp] field changed, the latter to the place of the saved registers. *)
Theorem C60_x86_entry : forall back exit_sp size s0,
  x_called size s0 -> 0 <= exit_sp -> exit_sp + 8 <= size -> is_u64 back ->
  let s1 := xrun back (x_entry exit_sp) s0 in
  xpc s1 = xr s0 RCX /\ xr s1 RDI = xr s0 RDI /\ xr s1 RSI = xr s0 RSI /\ xr s1 RDX = xr s0 RDX
  /\ (xr s1 RSP + 8) mod 16 = 0 /\ load64 (xm s1) (xr s1 RSP) = back
  /\ load64 (xm s1) (xr s0 RDI + exit_sp) = xr s0 RSP - 48 /\ xr s1 RSP < xr s0 RSP - 48
  /\ only (xm s0) (xm s1) (xr s0 RSP - 64) (xr s0 RSP) (xr s0 RDI + exit_sp) (xr s0 RDI + exit_sp + 8).
Proof.
  intros back exit_sp size s0 HC Ho1 Ho2 Hb s1.
  destruct (x_entry_state back exit_sp size s0 HC Ho1 Ho2) as (E1 & E2 & E3 & _).
  destruct (x_entry_saved back exit_sp size s0 HC Ho1 Ho2 Hb) as (_ & _ & _ & _ & _ & _ & _ & E4 & E5 & E6).
  fold s1 in E1, E2, E3, E4, E5, E6. destruct HC as (HU & H1 & H2 & H3 & H4 & H5).
  split; [exact E1|]. split; [apply E3; discriminate|]. split; [apply E3; discriminate|]. split; [apply E3; discriminate|].
  split; [rewrite E2; replace (xr s0 RSP - 64 + 8) with (xr s0 RSP + 8 + (-4) * 16) by lia; rewrite Z.mod_add by lia; exact H3|].
  split; [rewrite E2; exact E5|]. split; [exact E4|]. split; [lia | exact E6].
Qed.

Theorem C60_x86 : forall back exit_sp exit_result size code s0 result,
  x_called size s0 -> 0 <= exit_sp -> exit_sp + 8 <= size -> 0 <= exit_result < size -> is_u64 back ->
  let s1 := xrun back (x_entry exit_sp) s0 in
  x_code_ok exit_sp exit_result s0 s1 (code s1) result ->
  let s := x_call back exit_sp exit_result code s0 in
  x_returned s0 s /\ xr s RAX mod 256 = result /\ xm s = match code s1 with Returned s2 | Exited s2 => xm s2 end.
Proof.
  intros back exit_sp exit_result size code s0 result HC Ho1 Ho2 Hr Hb s1 HK s.
  destruct (x_entry_state back exit_sp size s0 HC Ho1 Ho2) as (E1 & E2 & E3 & _).
  destruct (x_entry_saved back exit_sp size s0 HC Ho1 Ho2 Hb) as (V1 & V2 & V3 & V4 & V5 & V6 & V7 & V8 & V9 & V10).
  fold s1 in E1, E2, E3, V1, V2, V3, V4, V5, V6, V7, V8, V9, V10. unfold s, x_call. fold s1.
  assert (BASE : forall s2, xr s2 RSP = xr s0 RSP - 48 -> same (xm s1) (xm s2) (xr s0 RSP - 48) (xr s0 RSP + 8) ->
    let s3 := xrun back [XPop R15; XPop R14; XPop R13; XPop R12; XPop RBX; XPop RBP; XRet] s2 in
    x_returned s0 s3 /\ xr s3 RAX = xr s2 RAX /\ xm s3 = xm s2).
  { intros s2 HS HM s3. destruct (x_pops back size s0 s2 HC HS) as (P1 & P2 & P3 & P4 & P5 & P6 & P7 & P8 & P9 & P10).
    assert (L : forall a, xr s0 RSP - 48 <= a -> a + 8 <= xr s0 RSP + 8 -> load64 (xm s2) a = load64 (xm s1) a)
      by (intros a Ha Hb'; exact (load_same _ _ _ _ _ HM Ha Hb')).
    fold s3 in P1, P2, P3, P4, P5, P6, P7, P8, P9, P10.
    rewrite L in P1, P3, P4, P5, P6, P7, P8 by lia.
    split; [|split; assumption]. split; [rewrite P1; exact V7|]. split; [exact P2|].
    intros r HI. cbn in HI. destruct HI as [<- | [<- | [<- | [<- | [<- | [<- | []]]]]]]; congruence. }
  destruct HC as (HU & H1 & H2 & H3 & H4 & H5). pose proof (HU RDI) as Hdi. unfold is_u64 in Hdi.
  destruct (code s1) as [s2 | s2]; cbn [x_code_ok] in HK.
  - destruct HK as ((_ & K2 & _) & K4 & K5).
    change x_leave with (XAdd RSP 8 :: [XPop R15; XPop R14; XPop R13; XPop R12; XPop RBX; XPop RBP; XRet]).
    set (s2' := xstep back (XAdd RSP 8) s2).
    change (xrun back (XAdd RSP 8 :: [XPop R15; XPop R14; XPop R13; XPop R12; XPop RBX; XPop RBP; XRet]) s2)
      with (xrun back [XPop R15; XPop R14; XPop R13; XPop R12; XPop RBX; XPop RBP; XRet] s2').
    assert (HS : xr s2' RSP = xr s0 RSP - 48).
    { unfold s2'. cbn [xstep xset xr xreg_beq]. rewrite K2, E2. rewrite Z.mod_small; unfold W64 in *; lia. }
    destruct (BASE s2' HS K4) as (B1 & B2 & B3). split; [exact B1|]. split; [rewrite B2; exact K5 | exact B3].
  - destruct HK as (K1 & K2 & K3 & K4 & K5).
    set (s2' := xstep back (XLoad RSP RDI exit_sp) (xstep back (XMovzx RAX RDI exit_result) s2)).
    change (xrun back (x_exit exit_sp exit_result) s2)
      with (xrun back [XPop R15; XPop R14; XPop R13; XPop R12; XPop RBX; XPop RBP; XRet] s2').
    assert (M1 : (xr s0 RDI + exit_sp) mod W64 = xr s0 RDI + exit_sp) by (apply Z.mod_small; lia).
    assert (M2 : (xr s0 RDI + exit_result) mod W64 = xr s0 RDI + exit_result) by (apply Z.mod_small; lia).
    assert (HS : xr s2' RSP = xr s0 RSP - 48).
    { unfold s2'. cbn [xstep xset xr xm xreg_beq]. rewrite K1, M1. rewrite (load_same _ _ _ _ _ K3) by lia. exact V8. }
    assert (HR : xr s2' RAX = result).
    { unfold s2'. cbn [xstep xset xr xm xreg_beq]. rewrite K1, M2. exact K5. }
    destruct (BASE s2' HS K2) as (B1 & B2 & B3). split; [exact B1|].
    split; [rewrite B2, HR; apply Z.mod_small; lia | exact B3].
Qed.

Theorem C60_aarch64_entry : forall back exit_sp size s0,
  a_called size s0 -> 0 <= exit_sp -> exit_sp + 8 <= size ->
  let s1 := arun back (a_entry exit_sp) s0 in
  apc s1 = ar s0 (X 3) /\ (forall n, (n < 3)%nat -> ar s1 (X n) = ar s0 (X n))
  /\ ar s1 SP mod 16 = 0 /\ ar s1 (X 30) = back /\ load64 (am s1) (ar s0 (X 0) + exit_sp) = ar s1 SP
  /\ only (am s0) (am s1) (ar s0 SP - 160) (ar s0 SP) (ar s0 (X 0) + exit_sp) (ar s0 (X 0) + exit_sp + 8).
Proof.
  intros back exit_sp size s0 HC Ho1 Ho2 s1.
  destruct (a_entry_state back exit_sp size s0 HC Ho1 Ho2) as (E1 & E2 & E3 & E4 & _ & E6 & E7).
  fold s1 in E1, E2, E3, E4, E6, E7. destruct HC as (HU & H1 & H2 & H3 & H4 & H5).
  split; [exact E1|]. split; [intros n Hn; apply E4; intros EE; [discriminate EE | injection EE as ->; lia | injection EE as ->; lia]|].
  split; [rewrite E2; replace (ar s0 SP - 160) with (ar s0 SP + (-10) * 16) by lia; rewrite Z.mod_add by lia; exact H3|].
  split; [exact E3|]. split; [rewrite E6, E2; reflexivity | exact E7].
Qed.

Theorem C60_aarch64 : forall back exit_sp exit_result size code s0 result,
  a_called size s0 -> 0 <= exit_sp -> exit_sp + 8 <= size -> 0 <= exit_result < size ->
  let s1 := arun back (a_entry exit_sp) s0 in
  a_code_ok exit_sp exit_result s0 s1 (code s1) result ->
  let s := a_call back exit_sp exit_result code s0 in
  a_returned s0 s /\ ar s (X 0) mod 256 = result /\ am s = match code s1 with Returned s2 | Exited s2 => am s2 end.
Proof.
  intros back exit_sp exit_result size code s0 result HC Ho1 Ho2 Hr s1 HK s.
  destruct (a_entry_state back exit_sp size s0 HC Ho1 Ho2) as (E1 & E2 & E3 & E4 & E5 & E6 & E7).
  fold s1 in E1, E2, E3, E4, E5, E6, E7. unfold s, a_call. fold s1.
  assert (SAVED : forall m, same (am s1) m (ar s0 SP - 160) (ar s0 SP) -> a_saved m (ar s0 SP - 160) s0).
  { intros m HM. unfold a_saved in *. rewrite !(load_same _ _ _ _ _ HM) by lia. exact E5. }
  pose proof HC as (HU & H1 & H2 & H3 & H4 & H5). pose proof (HU (X 0)) as Hdi. unfold is_u64 in Hdi.
  destruct (code s1) as [s2 | s2]; cbn [a_code_ok] in HK.
  - destruct HK as ((_ & K2 & _) & K4 & K5).
    destruct (a_leave_state back size s0 s2 HC) as (B1 & B2 & B3); [rewrite K2; exact E2 | apply SAVED; exact K4|].
    split; [exact B1|]. split; [rewrite B2; exact K5 | exact B3].
  - destruct HK as (K1 & K2 & K3 & K4 & K5).
    set (s2' := arun back [ALdr (X 9) (X 0) exit_sp; ALdrb (X 0) (X 0) exit_result; AMov SP (X 9)] s2).
    change (arun back (a_exit exit_sp exit_result) s2) with (arun back a_leave s2').
    assert (M1 : (ar s0 (X 0) + exit_sp) mod W64 = ar s0 (X 0) + exit_sp) by (apply Z.mod_small; lia).
    assert (M2 : (ar s0 (X 0) + exit_result) mod W64 = ar s0 (X 0) + exit_result) by (apply Z.mod_small; lia).
    assert (HS : ar s2' SP = ar s0 SP - 160).
    { unfold s2', arun. cbn [fold_left astep aset ar am areg_beq internal_nat_beq]. rewrite K1, M1.
      rewrite (load_same _ _ _ _ _ K3) by lia. exact E6. }
    assert (HR : ar s2' (X 0) = result).
    { unfold s2', arun. cbn [fold_left astep aset ar am areg_beq internal_nat_beq]. rewrite K1, M2. exact K5. }
    destruct (a_leave_state back size s0 s2' HC HS) as (B1 & B2 & B3); [apply SAVED; exact K2|].
    split; [exact B1|]. split; [rewrite B2, HR; apply Z.mod_small; lia | exact B3].
Qed.

(** Cases that meet the hypotheses: a context of 216 bytes with the fields at 168 and 176; the code stores 5 as the
    result and leaves with every other register overwritten, among them the stack pointer. *)
Definition x_demo : xstate :=
  mkX (fun r => match r with RSP => 4088 | RDI => 8192 | RBX => 11 | RBP => 12 | R12 => 13 | R13 => 14 | R14 => 15 | R15 => 2 ^ 63 | _ => 3 end)
      (fun x => if x =? 4088 then 66 else 0) 400.
Definition x_demo_code (s : xstate) : fin xstate :=
  Exited (mkX (fun r => match r with RDI => 8192 | _ => 99 end) (fun x => if x =? 8192 + 168 then 5 else xm s x) 77).
Example C60_ex_x86 :
  x_called 216 x_demo /\ x_code_ok 176 168 x_demo (xrun 500 (x_entry 176) x_demo) (x_demo_code (xrun 500 (x_entry 176) x_demo)) 5
  /\ let s := x_call 500 176 168 x_demo_code x_demo in
     (xpc s, map (xr s) [RSP; RBX; RBP; R12; R13; R14; R15; RAX]) = (66, [4096; 11; 12; 13; 14; 15; 2 ^ 63; 5]).
Proof.
  split; [|split].
  - unfold x_called. split; [intros r; destruct r; unfold is_u64, W64; cbn; lia|]. cbn; unfold W64; lia.
  - cbn [x_code_ok x_demo_code xr xm]. repeat split; try (intros x Hx; cbn [x_demo xr] in Hx; destruct (Z.eqb_spec x (8192 + 168)); [lia | reflexivity]); cbn; lia.
  - vm_compute. reflexivity.
Qed.
Definition a_demo : astate :=
  mkA (fun r => match r with SP => 4096 | X 0 => 8192 | X 30 => 66 | X n => Z.of_nat (Nat.min n 31) | D n => 100 + Z.of_nat (Nat.min n 31) end) (fun _ => 0) 400.
Definition a_demo_code (s : astate) : fin astate :=
  Exited (mkA (fun r => match r with X 0 => 8192 | _ => 99 end) (fun x => if x =? 8192 + 168 then 5 else am s x) 77).
Example C60_ex_aarch64 :
  a_called 216 a_demo
  /\ a_code_ok 176 168 a_demo (arun 500 (a_entry 176) a_demo) (a_demo_code (arun 500 (a_entry 176) a_demo)) 5
  /\ let s := a_call 500 176 168 a_demo_code a_demo in
     (apc s, map (ar s) [SP; X 0; X 19; X 28; X 29; D 8; D 15]) = (66, [4096; 5; 19; 28; 29; 108; 115]).
Proof.
  split; [|split].
  - unfold a_called. split; [|cbn; unfold W64; lia]. intros r. unfold is_u64, W64.
    assert (B : forall n, 0 <= Z.of_nat (Nat.min n 31) <= 31) by (intros n; lia).
    destruct r as [n | | n]; cbn [a_demo ar]; [|lia|specialize (B n); lia].
    pose proof (B n). do 31 (destruct n as [|n]; [cbn; lia|]). specialize (B (31 + n)%nat). cbn [Nat.add] in B. lia.
  - cbn [a_code_ok a_demo_code ar am]. repeat split; try (intros x Hx; cbn [a_demo ar] in Hx; destruct (Z.eqb_spec x (8192 + 168)); [lia | reflexivity]); cbn; lia.
  - vm_compute. reflexivity.
Qed.

Print Assumptions C60_x86_entry.
Print Assumptions C60_x86.
Print Assumptions C60_aarch64_entry.
Print Assumptions C60_aarch64.
