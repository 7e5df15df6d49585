(** What the analyses read of a parsed bytecode besides its instruction list. *)
From Verif Require Export BlockModel.
Open Scope Z_scope.

(** The constant an instruction carries in [data], mod.rs:265-290, read back as by [get_imm],
    mod.rs:617-626. *)
Definition inst_const (int : interner) (i : inst) : Z :=
  if has_imm_data (i_op i) then match imm_get (i_data i) int with Some v => v | None => 0 end
  else if (i_op i =? OP_JUMPDEST) || (i_op i =? OP_PC) then i_data i else 0.

(** [pc_to_inst], mod.rs:238-245,662-667: the hash map from the pc of each instruction to its index. *)
Fixpoint pc_index (pc : nat) (l : list inst) : option nat :=
  match l with
  | [] => None
  | i :: l' => if (i_pc i =? pc)%nat then Some 0%nat else option_map S (pc_index pc l')
  end.

(** [usize::try_from(v)] / [is_valid_jump] / [pc_to_inst] as in block_analysis.rs:790-796. The jumpdest
    bit vector has one bit per code byte, so values past the end of the code are not valid. *)
Definition program_dest (code_len : nat) (st : pstate) (v : Z) : option nat :=
  if (0 <=? v) && (v <? Z.of_nat code_len) && is_valid_jump st (Z.to_nat v)
  then pc_index (Z.to_nat v) (p_insts st) else None.

(** The analysis environment of a bytecode; [key] stands for the handles of the constants. *)
Definition program_env (code : list Z) (st : pstate) (key : Z -> Z) (gas_limit : Z) : aenv :=
  mkEnv (fun i => match nth_error (p_insts st) i with Some ins => inst_const (p_int st) ins | None => 0 end)
        (program_dest (length code) st) key (Z.of_nat (length code)) gas_limit.

(** [Bytecode::new] followed by [analyze] (without the later passes): environment, instruction list
    and analysed program. *)
Definition load (info : Z -> opinfo) (stack_io : Z -> Z * Z) (key : Z -> Z) (gas_limit : Z) (code : list Z)
  : option (aenv * list idata) :=
  match parse (active_of info) stack_io code with
  | Some st => Some (program_env code st key gas_limit, pad_insts (map (idata_of info) (p_insts st)))
  | None => None
  end.
