(** Property C50: compile-time evaluation is paid for at the EVM's prices out of a budget that is never exceeded. *)
From Verif Require Import BlockModel DedupModel BudgetSpec BudgetProof ProgramModel ProgramProof BlockProps DemoTables.
Open Scope Z_scope.

(** One evaluation: it is charged the EVM's price, within the limit; an instruction that is not evaluated costs
    nothing. *)
Theorem C50_evaluation env i d ins used r used' : fold_inst env i d ins used = (r, used') ->
  match r with
  | Some a => (exists v, a = AConst v) /\ evaluable (d_op d) /\ used' <= a_gas_limit env /\ price (d_op d) ins (used' - used)
  | None => used' = used
  end.
Proof.
  intros E. destruct (fold_inst_charge _ _ _ _ _ _ _ E) as [[-> ->]|(v & c & -> & EV & PR & -> & LI & _)]; [reflexivity|].
  split; [eauto|]. split; [exact EV|]. split; [exact LI|]. replace (used + c - used) with c by lia. exact PR.
Qed.
Print Assumptions C50_evaluation.

(** A block: what the budget is charged is the sum of the prices of exactly the instructions whose recorded result is
    a constant, with the recorded operands. *)
Theorem C50_block env insts idx stk sn used ok stk' sn' used' : NoDup idx ->
  interp_block env insts idx stk sn used = (ok, stk', sn', used') ->
  exists done rest n, idx = done ++ rest /\ (ok = true -> rest = []) /\ charges insts sn' done n (used' - used) /\
                      (n = 0%nat \/ used' <= a_gas_limit env).
Proof. intros ND E. exact (interp_block_charges env insts idx stk sn used ok stk' sn' used' ND E). Qed.
Print Assumptions C50_block.

(** The whole analysis of any bytecode, with or without deduplication: at most 9 block interpretations per instruction,
    the budget used is the total price of all evaluations made in them and within the limit, so there are at most half
    as many evaluations as the limit. *)
Theorem C50_analysis ord env prog p : analyze env prog = Some p \/ analyze_dedup ord env prog = Some p ->
  exists l n, rounds env 0 l n (b_used p) /\ (length l <= 9 * length prog)%nat /\
    0 <= b_used p <= Z.max 0 (a_gas_limit env) /\ 2 * Z.of_nat n <= Z.max 0 (a_gas_limit env).
Proof.
  intros H. assert (X : exists l n, rounds env 0 l n (b_used p) /\ (length l <= 9 * length prog)%nat)
    by (destruct H; [apply analyze_rounds|eapply analyze_dedup_rounds]; eauto).
  destruct X as (l & n & R & L). exists l, n. split; [exact R|]. split; [exact L|]. destruct (rounds_used _ _ _ _ _ R) as [[E|E] N]; lia.
Qed.
Print Assumptions C50_analysis.

(** With limit 0 nothing is evaluated: the analysis knows the result of no arithmetic instruction. *)
Theorem C50_exhausted info stack_io key lim code env prog ord p : loaded info stack_io key lim code env prog -> lim <= 0 ->
  analyze env prog = Some p \/ analyze_dedup ord env prog = Some p ->
  forall i d, nth_error prog i = Some d -> evaluable (d_op d) -> const_output p i = None.
Proof.
  intros LD LIM H i d Hi EV. destruct (loaded_facts _ _ _ _ _ _ _ LD) as (_ & RAW & _).
  assert (LE : a_gas_limit env <= 0).
  { destruct LD as (_ & _ & _ & _ & LD). unfold load in LD. destruct (parse _ _ _); [|discriminate]. injection LD as <- _. exact LIM. }
  pose proof (exhausted_tops env LE) as TOPS.
  assert (Q : quiet evaluable (map d_op prog) (b_snaps p)) by (destruct H; [eapply analyze_quiet; eauto|eapply analyze_dedup_quiet; eauto]).
  specialize (Q i (d_op d)). rewrite nth_error_map, Hi in Q. unfold const_output. destruct (sn_out (b_snaps p) i) as [[v| |]|]; try reflexivity.
  exfalso. exact (Q v eq_refl EV eq_refl).
Qed.
Print Assumptions C50_exhausted.

(** 4 mod ((2 + 3) * 7): with a large limit all three are evaluated for 3 + 5 + 5, in both phases; with limit 15 the
    second phase stops short; with limit 0 nothing is evaluated. *)
Definition budget_code : list Z := [0x60; 2; 0x60; 3; 0x01; 0x60; 7; 0x02; 0x60; 4; 0x06; 0x00].
Definition budget_run (lim : Z) : option (Z * list (option Z)) :=
  match load demo_info demo_io (fun v => v) lim budget_code with
  | Some (env, prog) => match analyze env prog with
                        | Some p => Some (b_used p, map (const_output p) [2; 4; 6]%nat)
                        | None => None
                        end
  | None => None
  end.
Example C50_ex_large : budget_run 1000 = Some (26, [Some 5; Some 35; Some 4]).
Proof. vm_compute. reflexivity. Qed.
Example C50_ex_small : budget_run 15 = Some (13, [None; None; None]).
Proof. vm_compute. reflexivity. Qed.
Example C50_ex_zero : budget_run 0 = Some (0, [None; None; None]).
Proof. vm_compute. reflexivity. Qed.
(** EXP with a 3-byte exponent costs 160: evaluated with 160 left, not with 159. *)
Definition exp_inst : idata := mkD 0x0a (mkF false false false false false false false false false) 10 (2, 1) 0 false 0 0 (0, 0).
Example C50_ex_exp :
  (let f lim := fold_inst (mkEnv (fun _ => 0) (fun _ => None) (fun v => v) 0 lim) 0 exp_inst [AConst 65536; AConst 1] 40 in (f 200, f 199)) =
  ((Some (AConst 1), 200), (None, 40)).
Proof. vm_compute. reflexivity. Qed.
