(** Property C19: the virtual stack. *)
From Verif Require Import VStackModel VStackSpec VStackProof.
Import ListNotations.
Open Scope Z_scope.

(** C19, the run. Take any line of instructions [l1 ++ l2] without no-op'd instructions, starting at a
    section head with the stack [st] in memory, whose sections are large enough ([fits]) and whose
    analysis facts hold. Whatever the EVM does on [l1], the compiled code does: no panic of code
    generation, the same machine state, and at the point between [l1] and [l2] the compiled stack
    represents the EVM stack exactly — slot by slot, from virtual slots and memory together, inside a
    section; from memory and the stack length variable alone at a section boundary. *)
Theorem C19_virtual_stack_represents {W} (l1 l2 : list (vinst W)) nh w c st r :
  Forall inst_ok (l1 ++ l2) -> Forall (fun i => vi_noop i = false) (l1 ++ l2) ->
  ends_ok (l1 ++ l2) nh -> fits 0 0 0 (l1 ++ l2) -> starts_head (l1 ++ l2) ->
  in_memory c st -> facts_hold l1 w st -> erun l1 w st = Some r ->
  let next_head := match l2 with j :: _ => is_head j | [] => nh end in
  match r with
  | EHalt w' => vrun (l1 ++ l2) nh w c = Some (RHalt w')
  | ENext w' st' =>
    exists c', vrun l1 next_head w c = Some (RNext w' c') /\
               vrun (l1 ++ l2) nh w c = vrun l2 nh w' c' /\
               (next_head = true -> in_memory c' st') /\
               (l1 <> [] -> last_exit l1 = false -> represents c' st')
  end.
Proof. exact (represents_ok l1 l2 nh w c st r). Qed.
Print Assumptions C19_virtual_stack_represents.

(** C19, spilling. Materializing any range of slots, at any point, writes exactly the slots of the
    range that are pending, each with its virtual value, leaves every other slot of the stack memory
    and every other entry of the virtual stack alone, and leaves nothing pending in the range. *)
Theorem C19_spill_exact c a b :
  let c' := materialize_range c a b in
  (forall p, c_mem c' p = match vs_slot (c_vs c) (p - c_start c) with
                          | Some (Virtual x) => if (a <=? p - c_start c) && (p - c_start c <? b) then x else c_mem c p
                          | _ => c_mem c p
                          end) /\
  (forall o, a <= o < b -> forall x, vs_slot (c_vs c') o <> Some (Virtual x)) /\
  (forall o, ~ (a <= o < b) -> vs_slot (c_vs c') o = vs_slot (c_vs c) o) /\
  (forall p, slot_value c' p = slot_value c p) /\
  (v_base (c_vs c'), v_top (c_vs c'), length (v_slots (c_vs c'))) = (v_base (c_vs c), v_top (c_vs c), length (v_slots (c_vs c))) /\
  (c_start c', c_slo c', c_lo c', c_len c', c_stored c') = (c_start c, c_slo c, c_lo c, c_len c, c_stored c).
Proof. exact (spill_exact c a b). Qed.
Print Assumptions C19_spill_exact.

(** *** A concrete line: PUSH 7; PUSH 8; PUSH 9; DUP2; SWAP3; ADD (inline); KECCAK-like builtin with two
    operands; POP; then a section head JUMPDEST. The machine state logs the builtin's operands. *)
Definition Wd := list (list Z).
Definition push (k : Z) (h : option (nat * nat)) : vinst Wd :=
  mkVi (EOp (fun w _ => (w, Some [k]))) (BFold k) 0 1 false h (fun _ => None) (Some k) (fun _ => True).
Definition dup (n : nat) : vinst Wd := mkVi (EDup n) (BDup n) n (S n) false None (fun _ => None) None (fun _ => True).
Definition swap (n : nat) : vinst Wd := mkVi (ESwap 0 n) (BExchange 0 n) (S n) (S n) false None (fun _ => None) None (fun _ => True).
Definition add : vinst Wd :=
  mkVi (EOp (fun w a => match a with [x; y] => (w, Some [x + y]) | _ => (w, Some [0]) end)) (BInline 2 true) 2 1 false
    None (fun _ => None) None (fun _ => True).
Definition builtin : vinst Wd :=
  mkVi (EOp (fun w a => (a :: w, Some [nth 0 a 0 * nth 1 a 0]))) BBuiltin 2 1 false None (fun _ => None) None (fun _ => True).
Definition pop : vinst Wd := mkVi (EOp (fun w _ => (w, Some []))) BPop 1 0 false None (fun _ => None) None (fun _ => True).
Definition jumpdest : vinst Wd :=
  mkVi (EOp (fun w _ => (w, Some []))) BNop 0 0 false (Some (0%nat, 0%nat)) (fun _ => None) None (fun _ => True).
Definition line : list (vinst Wd) := [push 7 (Some (1%nat, 4%nat)); push 8 None; push 9 None; dup 2; swap 3; add; builtin; pop; swap 1].
Definition start : cx := mkCx (vs_reset 0 0) (fun p => if p =? 0 then 100 else if p =? 1 then 101 else 0) 0 0 0 2 0.

Example C19_ex : Forall inst_ok (line ++ [jumpdest]) /\ Forall (fun i => vi_noop i = false) (line ++ [jumpdest]) /\
  ends_ok (line ++ [jumpdest]) false /\ fits 0 0 0 (line ++ [jumpdest]) /\ starts_head (line ++ [jumpdest]) /\
  in_memory start [101; 100] /\ facts_hold line [] [101; 100] /\
  erun line [] [101; 100] = Some (ENext [[16; 8]] [101; 8; 100]).
Proof.
  assert (IO : forall i, In i (line ++ [jumpdest]) -> inst_ok i).
  { intros i H. cbn in H. repeat (destruct H as [<-|H]; [|]); try contradiction;
      (split; [intros d k E; discriminate|]); (split; [intros k E; cbn in E; try discriminate|]);
      try (injection E as <-; cbn; auto); try (split; [|intros E; discriminate]); cbn; auto;
      try (split; [|auto]); try (intros w args outs L E; cbn in *; try (injection E as <-; reflexivity)); auto.
    destruct args as [|x [|y [|? ?]]]; try discriminate. injection E as <-. reflexivity. }
  split; [apply Forall_forall, IO|]. split; [repeat constructor|].
  split; [cbn; repeat split; intros; try discriminate|]. split; [cbn; lia|].
  split; [reflexivity|]. split; [|split; [cbn; auto 20|reflexivity]].
  split; [reflexivity|]. intros p P _. cbn in P. assert (p = 0 \/ p = 1) as [-> | ->] by lia; reflexivity.
Qed.
(** The compiled state at the boundary has the result in memory; before the builtin one value is
    still virtual, the others have been spilled by the pressure relief. *)
Example C19_ex_run :
  match vrun line true [] start with
  | Some (RNext w c) => (w, c_len c, map (c_mem c) [0; 1; 2]) = ([[16; 8]], 3, [100; 8; 101])
  | _ => False
  end.
Proof. vm_compute. reflexivity. Qed.
Example C19_ex_mid :
  match vrun (firstn 6 line) false [] start with
  | Some (RNext _ c) => (map (vs_slot (c_vs c)) [-1; 0; 1; 2], map (c_mem c) [0; 1; 2; 3]) =
                        ([Some Materialized; Some Materialized; Some Materialized; Some (Virtual 16)], [100; 101; 8; 8])
  | _ => False
  end.
Proof. vm_compute. reflexivity. Qed.
