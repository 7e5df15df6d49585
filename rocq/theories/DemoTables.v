(** A concrete opcode table, used only in the examples and witnesses: every byte is a known enabled
    opcode; stack effects are revm's for the opcodes listed and (0, 0) for the others. *)
From Verif Require Import ProgramModel ProgramProof.
From Coq Require Import ZifyBool.
Open Scope Z_scope.

Definition demo_info (op : Z) : opinfo := mkInfo false false 3.
Definition demo_io (op : Z) : Z * Z :=
  if (0x5f <=? op) && (op <=? 0x7f) then (0, 1)
  else if (0x80 <=? op) && (op <=? 0x8f) then (op - 0x7f, op - 0x7e)
  else if (0x90 <=? op) && (op <=? 0x9f) then (op - 0x8e, op - 0x8e)
  else if op =? 0x50 then (1, 0)
  else if op =? 0x56 then (1, 0)
  else if op =? 0x57 then (2, 0)
  else if (1 <=? op) && (op <=? 7) then (2, 1)              (* ADD .. SMOD *)
  else if (op =? 8) || (op =? 9) then (3, 1)                (* ADDMOD, MULMOD *)
  else if (op =? 0x36) || (op =? 0x34) then (0, 1)          (* CALLDATASIZE, CALLVALUE *)
  else if op =? 0x35 then (1, 1)                            (* CALLDATALOAD *)
  else if op =? 0x54 then (1, 1)                            (* SLOAD *)
  else if op =? 0x55 then (2, 0)                            (* SSTORE *)
  else if op =? 0x51 then (1, 1)                            (* MLOAD *)
  else if op =? 0x52 then (2, 0)                            (* MSTORE *)
  else if (op =? 0xf3) || (op =? 0xfd) then (2, 0)          (* RETURN, REVERT *)
  else if op =? 0xa4 then (6, 0)                            (* LOG4 *)
  else (0, 0).

Lemma demo_tables_ok : tables_ok demo_info demo_io.
Proof.
  constructor.
  - intros op _. split; reflexivity.
  - intros op. unfold demo_io.
    repeat match goal with |- context [if ?b then _ else _] => destruct b eqn:? end; cbn [fst snd]; lia.
  - intros op H. unfold demo_io. replace ((0x5f <=? op) && (op <=? 0x7f)) with true by lia. reflexivity.
  - reflexivity.
  - intros op H. unfold demo_io. replace ((0x5f <=? op) && (op <=? 0x7f)) with false by lia.
    replace ((0x80 <=? op) && (op <=? 0x8f)) with true by lia. reflexivity.
  - intros op H. unfold demo_io. replace ((0x5f <=? op) && (op <=? 0x7f)) with false by lia.
    replace ((0x80 <=? op) && (op <=? 0x8f)) with false by lia. replace ((0x90 <=? op) && (op <=? 0x9f)) with true by lia. reflexivity.
  - repeat split.
Qed.

(** Executable version of [reach]. *)
From Verif Require Import FlowSpec.
Section Run.
  Context {Y : Type} (prog : list idata) (const : nat -> Z) (dest : Z -> option nat)
          (sem : nat -> list Z -> Y -> option (list Z * Y)).
  Fixpoint run (n : nat) (s : nat * list Z * Y) : option (nat * list Z * Y) :=
    match n with
    | O => Some s
    | S n' => let '(i, st, y) := s in
              match evm_step prog const dest sem i st y with Some s' => run n' s' | None => None end
    end.
  Lemma run_reach y0 n : forall i st y i' st' y', reach prog const dest sem y0 i st y ->
    run n (i, st, y) = Some (i', st', y') -> reach prog const dest sem y0 i' st' y'.
  Proof.
    induction n as [|n IH]; intros i st y i' st' y' HR H; cbn [run] in H; [congruence|].
    destruct (evm_step prog const dest sem i st y) as [[[j sj] yj]|] eqn:E; [|discriminate].
    eapply IH; [eapply reach_step; eauto|exact H].
  Qed.
  Lemma run_from_start y0 n i st y : run n (0%nat, [], y0) = Some (i, st, y) -> reach prog const dest sem y0 i st y.
  Proof. apply run_reach. constructor. Qed.
  Lemma run_step n : forall s s1, run n s = Some s1 -> run (S n) s = let '(i, st, y) := s1 in evm_step prog const dest sem i st y.
  Proof.
    induction n as [|n IH]; intros [[i st] y] s1 H.
    - cbn in H. injection H as <-. cbn. destruct (evm_step prog const dest sem i st y); reflexivity.
    - cbn [run] in H. change (run (S (S n)) (i, st, y)) with (match evm_step prog const dest sem i st y with Some s' => run (S n) s' | None => None end).
      destruct (evm_step prog const dest sem i st y) as [s'|]; [|discriminate]. apply IH. exact H.
  Qed.
  Lemma reach_run y0 i st y : reach prog const dest sem y0 i st y -> exists n, run n (0%nat, [], y0) = Some (i, st, y).
  Proof.
    induction 1 as [|i st y j st' y' HR [n IH] Hs]; [exists 0%nat; reflexivity|].
    exists (S n). rewrite (run_step n _ _ IH). exact Hs.
  Qed.
  (** The execution from [s] ends within [n] steps and never has more than [k] items on the stack. *)
  Fixpoint depth_check (k n : nat) (s : nat * list Z * Y) : bool :=
    match n with
    | O => false
    | S n' => let '(i, st, y) := s in
              (length st <=? k)%nat &&
              match evm_step prog const dest sem i st y with Some s' => depth_check k n' s' | None => true end
    end.
  Lemma depth_check_ok k n : forall s, depth_check k n s = true -> forall m i st y, run m s = Some (i, st, y) -> (length st <= k)%nat.
  Proof.
    induction n as [|n IH]; intros [[i0 st0] y0] H m i st y Hm; [discriminate|].
    cbn [depth_check] in H. apply andb_true_iff in H as [H1 H2]. destruct m as [|m]; cbn [run] in Hm.
    - apply Nat.leb_le in H1. congruence.
    - destruct (evm_step prog const dest sem i0 st0 y0) as [s'|]; [|discriminate]. eapply IH; eauto.
  Qed.
  Lemma depth_check_reach k n y0 : depth_check k n (0%nat, [], y0) = true -> forall i st y, reach prog const dest sem y0 i st y -> (length st <= k)%nat.
  Proof. intros H i st y HR. destruct (reach_run y0 i st y HR) as [m Hm]. eapply depth_check_ok; eauto. Qed.
End Run.

(** Example semantics: CALLDATASIZE pushes the word in the state; every other opaque instruction ends
    the frame. *)
Definition demo_sem (prog : list idata) (i : nat) (args : list Z) (y : Z) : option (list Z * Z) :=
  match nth_error prog i with
  | Some d => if (d_op d =? 0x36) && (0 <=? y) && (y <? 2 ^ 256) then Some ([y], y)
              else if d_op d =? 0x5b then Some ([], y) else None
  | None => None
  end.
Lemma demo_sem_ok prog const len : (forall i d, nth_error prog i = Some d -> d_op d = 0x36 -> d_io d = (0, 1)) ->
  (forall i d, nth_error prog i = Some d -> d_op d = 0x5b -> d_io d = (0, 0)) ->
  sem_ok prog const (demo_sem prog) len.
Proof.
  intros IO IO2. constructor; unfold demo_sem.
  - intros i d args y outs y' H. rewrite H. intros H0.
    destruct ((d_op d =? 0x36) && (0 <=? y) && (y <? 2 ^ 256)) eqn:E.
    + injection H0 as <- <-. rewrite (IO i d H) by lia. split; [reflexivity|]. constructor; [|constructor].
      unfold ArithSpec.is_word. change ArithSpec.W with (2 ^ 256). lia.
    + destruct (d_op d =? 0x5b) eqn:E5; [|discriminate]. injection H0 as <- <-. rewrite (IO2 i d H) by lia. split; [reflexivity|constructor].
  - intros i d o args y outs y' r H H0. rewrite H.
    assert (X : (d_op d =? 0x36) = false /\ (d_op d =? 0x5b) = false) by (rewrite H0; destruct o; split; reflexivity).
    destruct X as [-> ->]. discriminate.
  - intros i d args y outs y' H H0. rewrite H, H0. discriminate.
  - intros i d args y outs y' H H0. rewrite H, H0. discriminate.
Qed.
