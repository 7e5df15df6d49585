(** Reference machine for gas and stack accounting: charge and check every instruction separately.

    Independent of the section model: it only reads an instruction's opcode, static gas, stack effect
    and whether the opcode exists. What an instruction does besides is an arbitrary function [sem]. *)
From Verif Require Import InstModel.
Open Scope Z_scope.

(** What executing an instruction body does: continue at index [j] after spending [spend] dynamic gas
    and being given back [give] (unused gas of a call), stop the frame, or fail exceptionally. *)
Inductive outcome (X R : Type) :=
| ONext (spend give : Z) (j : nat) (x : X)
| OStop (spend : Z) (r : R) (x : X)
| OFail.
Arguments ONext {X R}. Arguments OStop {X R}. Arguments OFail {X R}.

(** Machine states: instruction index, gas left, stack height, everything else. *)
Record mstate (X : Type) := mkM { m_i : nat; m_gas : Z; m_len : Z; m_x : X }.
Arguments mkM {X}. Arguments m_i {X}. Arguments m_gas {X}. Arguments m_len {X}. Arguments m_x {X}.

Inductive mres (X R : Type) :=
| MNext (s : mstate X)
| MDone (gas : Z) (r : R) (x : X)
| MFail.
Arguments MNext {X R}. Arguments MDone {X R}. Arguments MFail {X R}.

(** Runs to completion, with the trace of what gas-observing instructions saw. *)
Inductive run {X R : Type} (step : mstate X -> list (mstate X) * mres X R)
  : mstate X -> list (mstate X) -> mres X R -> Prop :=
| run_fail s o : step s = (o, MFail) -> run step s o MFail
| run_done s o g r x : step s = (o, MDone g r x) -> run step s o (MDone g r x)
| run_next s o s' t f : step s = (o, MNext s') -> run step s' t f -> run step s (o ++ t) f.

(** Instructions whose behaviour depends on the gas left: GAS, CALL*, CREATE* (EIP-150), SSTORE since
    Istanbul (EIP-2200). *)
Definition observes_gas (istanbul : bool) (op : Z) : bool :=
  existsb (Z.eqb op) [0x5a; 0xf0; 0xf1; 0xf2; 0xf4; 0xf5; 0xfa] || ((op =? 0x55) && istanbul).

(** Instructions that can end the frame normally. *)
Definition ends_frame (op : Z) : bool := existsb (Z.eqb op) [0x00; 0xf3; 0xfd; 0xff].

Section Ref.
  Context {X R : Type}.
  Variable sem : nat -> Z -> Z -> X -> outcome X R.
  Variable istanbul : bool.

  (** Apply an instruction body with [g1] gas left; [disc] is deducted from its dynamic gas. *)
  Definition body (d : idata) (disc : Z) (s : mstate X) (g1 : Z) : list (mstate X) * mres X R :=
    let obs := if observes_gas istanbul (d_op d) then [mkM (m_i s) g1 (m_len s) (m_x s)] else [] in
    match sem (m_i s) g1 (m_len s) (m_x s) with
    | OFail => (obs, MFail)
    | OStop spend r x => if g1 <? spend - disc then (obs, MFail) else (obs, MDone (g1 - (spend - disc)) r x)
    | ONext spend give j x =>
        if g1 <? spend - disc then (obs, MFail)
        else (obs, MNext (mkM j (g1 - (spend - disc) + give) (m_len s - fst (d_io d) + snd (d_io d)) x))
    end.

  (** One instruction of the EVM. *)
  Definition ref_step (prog : list idata) (s : mstate X) : list (mstate X) * mres X R :=
    match nth_error prog (m_i s) with
    | None => ([], MFail)
    | Some d =>
        if f_disabled (d_flags d) || f_unknown (d_flags d) then ([], MFail)
        else if m_gas s <? d_gas d then ([], MFail)
        else if m_len s <? fst (d_io d) then ([], MFail)
        else if 1024 <? m_len s - fst (d_io d) + snd (d_io d) then ([], MFail)
        else body d 0 s (m_gas s - d_gas d)
    end.
End Ref.

(** ** Where control may go. The last live instruction before index [k], the first after [i]. *)
Definition prev_live (l : list idata) (k : nat) : option idata :=
  fold_left (fun acc d => if is_dead d then acc else Some d) (firstn k l) None.
Definition next_live (l : list idata) (i : nat) : option idata :=
  find (fun d => negb (is_dead d)) (skipn (S i) l).

(** ** Per-instruction stack checks of a straight line of stack effects. *)
Fixpoint stack_run (ios : list (Z * Z)) (h : Z) : bool :=
  match ios with
  | [] => true
  | (i, o) :: r => (i <=? h) && (h - i + o <=? 1024) && stack_run r (h - i + o)
  end.
