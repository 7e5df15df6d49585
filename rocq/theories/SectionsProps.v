(** Properties C07 and C08: gas and stack sections. *)
From Verif Require Import SectionsModel SectionsProof.
Open Scope Z_scope.

(** C07 and C08 together: the machine that charges and checks once per section and the machine that
    charges and checks every instruction have the same runs: same outcome (final gas, result, state,
    or failure) and the same gas, stack height and state at every gas-observing instruction — from
    every entry point (so also after every resume), for every gas and stack height, every body
    semantics and dynamic gas. *)
Theorem C07_sections_unobservable {X R} dyn istanbul extra (sem : nat -> Z -> Z -> X -> outcome X R) l i g h x t f :
  unsectioned l -> bodies_ok dyn istanbul extra sem l ->
  (forall i d, nth_error l i = Some d -> d_gas d + extra i <= 65535) -> Z.of_nat (length l) <= 65537 ->
  entry dyn istanbul l i -> 0 <= g -> 0 <= h <= 1024 ->
  run (ref_step sem istanbul l) (mkM i g h x) t f <->
  run (comp_step sem istanbul extra (construct_sections dyn istanbul extra l)) (mkM i g h x) t f.
Proof. exact (sections_unobservable dyn istanbul extra sem l i g h x t f). Qed.
Print Assumptions C07_sections_unobservable.

(** PUSH0; JUMPDEST; GAS; POP; PUSH0; JUMP back to the JUMPDEST. *)
Definition I (op gas inp out : Z) : idata := mkD op no_flags gas (inp, out) 0 true 0 0 (0, 0).
Definition loop_prog : list idata := [I 0x5f 2 0 1; I 0x5b 1 0 0; I 0x5a 2 0 1; I 0x50 2 1 0; I 0x5f 2 0 1; I 0x56 8 1 0].
Definition loop_sem (i : nat) (g h : Z) (x : unit) : outcome unit unit :=
  if (i =? 5)%nat then ONext 0 0 1 x else ONext 0 0 (S i) x.

Example C07_ex : unsectioned loop_prog /\ bodies_ok false true (fun _ => 0) loop_sem loop_prog /\
  entry false true loop_prog 0 /\
  map (fun d => (d_gas_section d, d_stack_section d)) (construct_sections false true (fun _ => 0) loop_prog)
  = [(2, (0, 1)); (3, (0, 1)); (0, (0, 0)); (12, (1, 0)); (0, (0, 0)); (0, (0, 0))] /\
  run (ref_step loop_sem true loop_prog) (mkM 0 18 0 tt) [mkM 2 13 1 tt] MFail.
Proof.
  split; [|split; [|split; [|split]]].
  - repeat constructor; cbn; lia.
  - constructor.
    + lia.
    + reflexivity.
    + intros i d g h x sp gv j x' E Hd Hs. unfold loop_sem in Hs.
      do 6 (destruct i as [|i]; [cbn in Hs, E; inversion Hs; inversion E; subst; split; [lia|]; split; [lia|]; split; [|reflexivity];
        first [left; split; [reflexivity|]; eexists; split; [reflexivity|reflexivity]
              |right; split; [eexists; split; [reflexivity|]; split; [reflexivity|]; left; reflexivity|left; reflexivity]]|]).
      cbn in E. destruct i; discriminate.
    + intros i d g h x sp r x' E Hs. unfold loop_sem in Hs. destruct (i =? 5)%nat; discriminate.
    + reflexivity.
  - eexists. split; [reflexivity|]. split; [reflexivity|]. right. exact Logic.I.
  - reflexivity.
  - eapply (run_next _ _ [] _ [mkM 2 13 1 tt]); [reflexivity|].
    eapply (run_next _ _ [] _ [mkM 2 13 1 tt]); [reflexivity|].
    eapply (run_next _ _ [mkM 2 13 1 tt] _ []); [reflexivity|].
    eapply (run_next _ _ [] _ []); [reflexivity|].
    eapply (run_next _ _ [] _ []); [reflexivity|].
    eapply (run_next _ _ [] _ []); [reflexivity|].
    eapply (run_next _ _ [] _ []); [reflexivity|].
    apply run_fail. reflexivity.
Qed.

(** Without the two size hypotheses the claim is false: the section's cost is stored in 32 bits and
    saturates, e.g. an EXP with constant operands under a gas schedule with a large per-byte price
    (finding F11). PUSH0; PUSH0; EXP; STOP with 2^32 gas for the exponentiation. *)
Definition exp_prog : list idata := [I 0x5f 2 0 1; I 0x5f 2 0 1; I 0x0a 10 2 1; I 0x00 0 0 0].
Definition exp_extra (i : nat) : Z := if (i =? 2)%nat then 2 ^ 32 else 0.
Definition exp_sem (i : nat) (g h : Z) (x : unit) : outcome unit unit :=
  if (i =? 2)%nat then ONext (2 ^ 32) 0 3 x else if (i =? 3)%nat then OStop 0 tt x else ONext 0 0 (S i) x.

Theorem C07_saturation_refuted : exists (l : list idata) extra (sem : nat -> Z -> Z -> unit -> outcome unit unit) g,
  unsectioned l /\ bodies_ok false true extra sem l /\ entry false true l 0 /\
  run (ref_step sem true l) (mkM 0 g 0 tt) [] MFail /\
  run (comp_step sem true extra (construct_sections false true extra l)) (mkM 0 g 0 tt) [] (MDone 1 tt tt).
Proof.
  exists exp_prog, exp_extra, exp_sem, (2 ^ 32).
  split; [|split; [|split; [|split]]].
  - repeat constructor; cbn; lia.
  - constructor.
    + intros i. unfold exp_extra. destruct (i =? 2)%nat; lia.
    + intros i d E He. unfold exp_extra. destruct (i =? 2)%nat eqn:Q; [|reflexivity].
      apply Nat.eqb_eq in Q. subst. cbn in E. inversion E; subst. discriminate.
    + intros i d g h x sp gv j x' E Hd Hs. unfold exp_sem, exp_extra in *.
      do 4 (destruct i as [|i]; [cbn in Hs, E; first [discriminate|inversion Hs; inversion E; subst; split; [cbn; lia|];
        split; [lia|]; split; [|reflexivity];
        left; split; [reflexivity|]; eexists; split; [reflexivity|reflexivity]]|]).
      cbn in E. destruct i; discriminate.
    + intros i d g h x sp r x' E Hs. unfold exp_sem, exp_extra in *.
      do 4 (destruct i as [|i]; [cbn in Hs, E; first [discriminate|inversion Hs; inversion E; subst; split; [cbn; lia|reflexivity]]|]).
      cbn in E. destruct i; discriminate.
    + reflexivity.
  - eexists. split; [reflexivity|]. split; [reflexivity|]. right. exact Logic.I.
  - eapply (run_next _ _ [] _ []); [reflexivity|].
    eapply (run_next _ _ [] _ []); [reflexivity|].
    apply run_fail. reflexivity.
  - eapply (run_next _ _ [] _ []); [reflexivity|].
    eapply (run_next _ _ [] _ []); [reflexivity|].
    eapply (run_next _ _ [] _ []); [reflexivity|].
    apply run_done. reflexivity.
Qed.
Print Assumptions C07_saturation_refuted.

(** C08. The single check generated for a straight line of stack effects passes exactly when every
    per-instruction check would, whatever the length of the line (saturation included). *)
Theorem C08_section_check ios h :
  Forall (fun io => 0 <= fst io /\ 0 <= snd io) ios -> 0 <= h <= 1024 ->
  check_stack_bounds (from_stack_io ios) h = stack_run ios h.
Proof. exact (stack_check_spec ios h). Qed.
Print Assumptions C08_section_check.

(** DUP2 ADD POP POP PUSH PUSH: needs 2, grows by 1. *)
Example C08_ex : from_stack_io [(2, 3); (2, 1); (1, 0); (1, 0); (0, 1); (0, 1)] = (2, 1) /\
  check_stack_bounds (2, 1) 1 = false /\ check_stack_bounds (2, 1) 1023 = true /\ check_stack_bounds (2, 1) 1024 = false.
Proof. vm_compute. repeat split. Qed.
