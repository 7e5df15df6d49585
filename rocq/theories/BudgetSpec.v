(** Specification of the compile-time evaluation budget (C50): the price of each evaluation is the EVM's
    own price of the instruction, and it is what the budget is charged. *)
From Verif Require Import BlockModel.
Open Scope Z_scope.

(** The EVM's prices of the instructions that can be evaluated at compile time, from their opcode bytes.
    Operands are listed deepest first, so EXP's exponent comes first. *)
Inductive price : Z -> list aval -> Z -> Prop :=
| price_base op ins : op = 0x38 \/ op = 0x58 -> price op ins 2                       (* CODESIZE, PC *)
| price_verylow op ins :                                                             (* ADD, SUB, LT … SAR, CLZ *)
    op = 0x01 \/ op = 0x03 \/ 0x10 <= op <= 0x1e -> price op ins 3
| price_low op ins :                                                                 (* MUL, DIV, SDIV, MOD, SMOD, SIGNEXTEND *)
    op = 0x02 \/ 0x04 <= op <= 0x07 \/ op = 0x0b -> price op ins 5
| price_mid op ins : op = 0x08 \/ op = 0x09 -> price op ins 8                        (* ADDMOD, MULMOD *)
| price_exp e ins n : 0 <= n ->                                                      (* EXP with an n-byte exponent *)
    (0 <= e -> e < 256 ^ n /\ (n = 0 \/ 256 ^ (n - 1) <= e)) ->
    price 0x0a (AConst e :: ins) (10 + 50 * n).

(** The instructions that can be evaluated. *)
Definition evaluable (op : Z) : Prop := op = 0x38 \/ op = 0x58 \/ 0x01 <= op <= 0x0b \/ 0x10 <= op <= 0x1e.
(** Evaluated: a live evaluable instruction that has a result (disabled opcodes have none) and whose recorded result
    is a constant. *)
Definition evaluated (insts : list idata) (sn : snaps) (i : nat) : Prop :=
  exists d v, nth_error insts i = Some d /\ f_dead (d_flags d) = false /\ evaluable (d_op d) /\ 0 < snd (d_io d) /\ sn_out sn i = Some (AConst v).
(** The instructions [idx] with the recorded results [sn] cost [c] in all, of which [n] were evaluated. *)
Inductive charges (insts : list idata) (sn : snaps) : list nat -> nat -> Z -> Prop :=
| charges_nil : charges insts sn [] 0 0
| charges_eval i idx n c d k : evaluated insts sn i -> nth_error insts i = Some d -> price (d_op d) (sn_in sn i) k ->
    charges insts sn idx n c -> charges insts sn (i :: idx) (S n) (k + c)
| charges_skip i idx n c : ~ evaluated insts sn i -> charges insts sn idx n c -> charges insts sn (i :: idx) n c.

(** [rounds env u l n u']: the budget goes from [u] to [u'] by interpreting blocks one after the other, with [n]
    evaluations in all; [l] lists the instructions they were interpreted on. Interpretation may give up within a block. *)
Inductive rounds (env : aenv) : Z -> list (list idata) -> nat -> Z -> Prop :=
| rounds_nil u : rounds env u [] 0 u
| rounds_cons u insts done rest stk sn ok stk' sn' n u1 l m u2 :
    interp_block env insts (done ++ rest) stk sn u = (ok, stk', sn', u1) -> (ok = true -> rest = []) ->
    charges insts sn' done n (u1 - u) ->
    rounds env u1 l m u2 -> rounds env u (insts :: l) (n + m) u2.
