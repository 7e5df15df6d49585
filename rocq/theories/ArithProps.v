(** Properties C05, C06, C20, C21: arithmetic at compile time and in generated code. *)
From Verif Require Import ArithSpec ArithModel ArithProof.
Open Scope Z_scope.

(** C05. Whatever constant folding returns is the EVM's result. [inputs] lists the operands deepest
    first; [None] is an operand not known to be constant. *)
Theorem C05_const_fold op pc code_len inputs r :
  Forall ok_input inputs ->
  try_const_fold op pc code_len inputs = Some r ->
  (op = 0x38 /\ r = code_len) \/ (op = 0x58 /\ r = pc) \/
  exists o vs, op = aop_code o /\ map Some vs = inputs /\ evm_arith o (rev vs) = Some r.
Proof. exact (try_const_fold_spec op pc code_len inputs r). Qed.
Print Assumptions C05_const_fold.

(** C05, completeness and budget: every pure instruction on constants is folded, and a budget cost
    is defined whenever folding succeeds (the debug assertion of const_fold.rs:190). *)
Theorem C05_const_fold_total o pc code_len vs :
  evm_arith o (rev vs) <> None ->
  exists r g, try_const_fold (aop_code o) pc code_len (map Some vs) = Some r /\
              const_fold_gas (aop_code o) (map Some vs) = Some g.
Proof.
  intros H. pose proof (try_const_fold_complete _ pc code_len _ o vs eq_refl eq_refl H) as H1.
  destruct (try_const_fold (aop_code o) pc code_len (map Some vs)) as [r|] eqn:E; [|congruence].
  pose proof (const_fold_gas_spec _ _ _ _ _ E) as H2.
  destruct (const_fold_gas (aop_code o) (map Some vs)) as [g|]; [|congruence]. exists r, g. split; reflexivity.
Qed.
Print Assumptions C05_const_fold_total.

(** -7 / 2 = -3, SIGNEXTEND 0 0xff = -1, SAR by 300 of a negative number = -1. *)
Example C05_ex :
  try_const_fold 0x05 0 0 [Some 2; Some (W - 7)] = Some (W - 3) /\
  try_const_fold 0x0b 0 0 [Some 0xff; Some 0] = Some (W - 1) /\
  try_const_fold 0x1d 0 0 [Some (W - 7); Some 300] = Some (W - 1) /\
  try_const_fold 0x0a 0 0 [Some 257; Some 2] = Some 0.
Proof. vm_compute. repeat split. Qed.

(** C06. The gas of an EXP is charged exactly once, whatever is known about its operands and output
    at compile time and whatever the gas schedule: statically in its section plus when it runs. The
    last hypothesis says an output is only known when the exponent is. *)
Theorem C06_exp_gas exp_cost const_base const_exponent const_out base exponent :
  agrees const_base base -> agrees const_exponent exponent -> 0 <= exponent ->
  (const_out <> None -> const_exponent <> None) ->
  exp_static_gas exp_cost const_exponent const_out
  + exp_dynamic_gas exp_cost const_base const_exponent const_out exponent = exp_cost exponent.
Proof. exact (exp_gas_once exp_cost const_base const_exponent const_out base exponent). Qed.
Print Assumptions C06_exp_gas.

(** Known exponent 2 (static), known base 2 with unknown exponent (run time), nothing known. *)
Example C06_ex (f : Z -> Z) :
  exp_static_gas f (Some 2) None = f 2 /\ exp_dynamic_gas f None (Some 2) None 2 = 0 /\
  exp_static_gas f None None = 0 /\ exp_dynamic_gas f (Some 2) None None 300 = f 300 /\
  exp_static_gas f (Some 3) None = 0 /\ exp_dynamic_gas f None (Some 3) None 3 = f 3.
Proof. repeat split. Qed.

(** C20. If operands known at compile time really have those values, the peephole expression
    evaluates (without undefined behaviour) to the EVM result for every value of the others. *)
Theorem C20_peephole o consts e pays args r :
  Forall is_word args -> Forall2 agrees consts args ->
  try_peephole o consts = Some (e, pays) -> evm_arith o args = Some r -> ieval args e = Val r.
Proof. exact (peephole_spec o consts e pays args r). Qed.
Print Assumptions C20_peephole.

(** 8 ** x with x unknown is lowered to a guarded shift; SDIV by -1 to a negation. *)
Example C20_ex :
  (exists e, try_peephole EXP [Some 8; None] = Some (e, true) /\ ieval [8; 85] e = Val (2 ^ 255) /\
     ieval [8; 86] e = Val 0 /\ ieval [8; 2 ^ 255] e = Val 0) /\
  (exists e, try_peephole SDIV [None; Some MAXW] = Some (e, false) /\ ieval [W - 5; MAXW] e = Val 5).
Proof. split; eexists; (split; [reflexivity|]); vm_compute; repeat split. Qed.

(** C21. Straight-line code for the pure instructions computes the EVM result on all words and is
    never undefined (the selected value is never poison). *)
Theorem C21_inline o e args r :
  Forall is_word args ->
  translate_inline o = Some e -> evm_arith o args = Some r -> ieval args e = Val r.
Proof. exact (inline_spec o e args r). Qed.
Print Assumptions C21_inline.

(** C20 + C21 + builtins: the whole lowering of every pure instruction. *)
Theorem C21_lowering o const_out consts args r :
  Forall is_word args -> Forall2 agrees consts args ->
  evm_arith o args = Some r -> agrees const_out r ->
  translate_arith o const_out consts args = Val r.
Proof. exact (translate_arith_spec o const_out consts args r). Qed.
Print Assumptions C21_lowering.

(** A shift by 2^200: the shift itself is poison, the selected result is defined. *)
Example C21_ex :
  ieval [2 ^ 200; 5] (IBin IShl (IArg 1) (IArg 0)) = Poison /\
  translate_arith SHL None [None; None] [2 ^ 200; 5] = Val 0 /\
  translate_arith SIGNEXTEND None [None; None] [1; 0x18000] = Val (W - 0x8000) /\
  translate_arith BYTE None [None; None] [30; 0xabcd] = Val 0xab.
Proof. vm_compute. repeat split. Qed.
