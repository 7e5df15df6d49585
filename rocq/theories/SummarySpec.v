(** Specification for the section summaries: which instructions a section covers, and which contracts
    are compiled. *)
From Verif Require Export SectionsModel DseSpec ProgramModel.
Open Scope Z_scope.

(** A section ends after an instruction that stops the frame, jumps, calls or creates, or looks at the
    gas left: STOP, JUMP, JUMPI, GAS, the calls and creates, RETURN, REVERT, INVALID, SELFDESTRUCT;
    SSTORE from Istanbul on; and after an opcode that does not exist. *)
Definition leaves_section (istanbul : bool) (d : idata) : bool :=
  existsb (Z.eqb (d_op d)) [0x00; 0x56; 0x57; 0x5a; 0xf0; 0xf1; 0xf2; 0xf3; 0xf4; 0xf5; 0xfa; 0xfd; 0xfe; 0xff]
  || ((d_op d =? 0x55) && istanbul) || f_disabled (d_flags d) || f_unknown (d_flags d).
(** A section also ends before a JUMPDEST that a jump may reach. *)
Definition lands (dyn : bool) (d : idata) : bool := (d_op d =? 0x5b) && (dyn || d_reach d).
(** The stack effects of the section that starts at the head of [l]; [first] while nothing has been
    taken yet. Dead instructions do not execute. *)
Fixpoint sect (dyn istanbul first : bool) (l : list idata) : list (Z * Z) :=
  match l with
  | [] => []
  | d :: l' =>
      if f_dead (d_flags d) then sect dyn istanbul first l'
      else if negb first && lands dyn d then []
      else d_io d :: (if leaves_section istanbul d then [] else sect dyn istanbul false l')
  end.

(** Stack effects the EVM has: at most 255 operands, one more result than operands at most, and at most
    six fewer (LOG4, CALL). *)
Definition evm_effect (io : Z * Z) : Prop := 0 <= fst io <= 255 /\ 0 <= snd io /\ -6 <= snd io - fst io <= 1.

(** [RuntimeTuning::should_compile], revmc-runtime/src/runtime/config.rs:338-348, and the default of
    [jit_max_bytecode_len] (config.rs: 24 KiB, the largest deployed contract). *)
Definition should_compile (max_len : Z) (code : list Z) : bool :=
  negb (Z.of_nat (length code) =? 0) && ((max_len <=? 0) || (Z.of_nat (length code) <=? max_len)).
Definition default_max_len : Z := 24 * 1024.

(** The code generator opens a section where the pass put a head, with the sizes recorded there
    (translate/mod.rs:585-594). *)
Definition headed {W} (d : idata) (v : vinst W) : Prop :=
  vi_head v = if f_head (d_flags d) then Some (Z.to_nat (fst (d_stack_section d)), Z.to_nat (snd (d_stack_section d))) else None.
(** Only jumps, calls and creates hand the stack over to another section in the middle of their own
    code (the arms of translate_inst that end with [goto_return!(no_branch)]). *)
Definition leaves_by_opcode {W} (d : idata) (v : vinst W) : Prop :=
  leaves (vi_body v) = true -> existsb (Z.eqb (d_op d)) [0x56; 0x57; 0xf0; 0xf1; 0xf2; 0xf4; 0xf5; 0xfa] = true.
