(** Specification for a translated contract: what each instruction has to mean, and how executions of
    the EVM (FlowSpec) end. *)
From Verif Require Export WholeModel DseSpec SummarySpec.
From Verif Require Import FlowSpec.
Open Scope Z_scope.

(** What a snapshot promises about the operands, top first. *)
Definition promised (snap : list aval) (args : list Z) : Prop :=
  forall depth k, snap_const snap depth = Some k -> nth depth args 0 = k.

Section Spec.
Context {Y : Type}.
Variable prog : list idata.
Variable env : aenv.
(** The EVM's semantics of the instructions that are not control flow or stack shuffles, and the final
    state of a frame that ends at instruction [i] with the given operands. *)
Variable sem : nat -> list Z -> Y -> option (list Z * Y).
Variable fin : nat -> list Z -> Y -> Y.

(** The operands a frame ends with; a failing jump leaves none behind. *)
Definition operands (d : idata) (st : list Z) : list Z :=
  if is_jump d then [] else firstn (Z.to_nat (fst (d_io d))) st.
(** The execution ends at [i], in state [yf]. *)
Definition ends_at (i : nat) (st : list Z) (y yf : Y) : Prop :=
  evm_step prog (a_const env) (a_dest env) sem i st y = None /\
  exists d, nth_error prog i = Some d /\ yf = fin i (operands d st) y.
(** The instruction finds its operands and leaves at most 1024 words. *)
Definition stack_fine (d : idata) (st : list Z) : Prop :=
  fst (d_io d) <= Z.of_nat (length st) /\ Z.of_nat (length st) - fst (d_io d) + snd (d_io d) <= 1024.
(** The execution ends at [i] exceptionally: with a stack error, at an instruction that does not exist
    in the hardfork, or at one that is not STOP, RETURN, REVERT or SELFDESTRUCT. *)
Definition exceptional (i : nat) (st : list Z) (y : Y) : Prop :=
  evm_step prog (a_const env) (a_dest env) sem i st y = None /\
  exists d, nth_error prog i = Some d /\
  (~ stack_fine d st \/ f_disabled (d_flags d) || f_unknown (d_flags d) = true \/
   existsb (Z.eqb (d_op d)) [0x00; 0xf3; 0xfd; 0xff] = false).
(** Several steps of the EVM. *)
Inductive steps : nat -> nat * list Z * Y -> nat * list Z * Y -> Prop :=
| steps_0 s : steps 0 s s
| steps_S n i st y s s' : evm_step prog (a_const env) (a_dest env) sem i st y = Some s -> steps n s s' -> steps (S n) (i, st, y) s'.

(** What an instruction does to the stack and the state, in the terms of the code generator's model.
    The place to go next is changed by jumps only. *)
Definition ending (i : nat) (w : wstate Y) (args : list Z) : wstate Y * option (list Z) :=
  ((fin i args (fst w), snd w), None).
Definition meaning (p : bc) (i : nat) (d : idata) : evm_op (wstate Y) :=
  let op := d_op d in
  if f_disabled (d_flags d) || f_unknown (d_flags d) then EOp (ending i)
  else if (0x5f <=? op) && (op <=? 0x7f) then EOp (fun w _ => (w, Some [a_const env i]))
  else if (op =? 0x56) || (op =? 0x57) then EOp (jump_code env p fin i d)
  else if existsb (Z.eqb op) [0x00; 0xf3; 0xfd; 0xfe; 0xff] then EOp (ending i)
  else
    match shape_of op (a_const env i) with
    | ShDup n => EDup n
    | ShSwap a b => ESwap a b
    | ShBad => EOp (ending i)
    | ShPop => EOp (fun w _ => (w, Some []))
    | ShCall => ECall (fun w args rest => match sem i args (fst w) with
                                          | Some (outs, y') => ((y', snd w), Some (outs ++ rest))
                                          | None => ((fin i args (fst w), snd w), None)
                                          end)
    | ShOther => EOp (fun w args => match sem i args (fst w) with
                                    | Some (outs, y') => ((y', snd w), Some outs)
                                    | None => ((fin i args (fst w), snd w), None)
                                    end)
    end.

(** [v] is a correct translation of instruction [i] of the final list [P] (the list of [p] with its
    sections): it has the instruction's meaning, arities, marks, constants and section; the operands the
    analysis promises are those of the snapshot; the emitted computation is the meaning ([inst_ok], what C05, C20, C21
    and C22 are about); only jumps, calls and creates leave the section by themselves. *)
Record translated (p : bc) (P : list idata) (i : nat) (v : vinst (wstate Y)) : Prop := {
  tr_low : exists t, item_at (a_const env) p i = Some t /\ lowered t v /\ vi_evm v = meaning p i (it_d t) /\
           forall args, promised (it_in t) args -> vi_fact v args;
  tr_body : inst_ok (unmark v);
  tr_head : exists d, nth_error P i = Some d /\ headed d v /\ leaves_by_opcode d v
}.
End Spec.
