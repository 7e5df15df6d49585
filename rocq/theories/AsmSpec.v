(** What an assembly program means, independently of how the assembler computes it. *)
From Verif Require Import OpcodeModel OpcodeSpec AsmModel.
Open Scope Z_scope.

(** The statements one can write. *)
Inductive stmt :=
| SLabel (name : nat)                (* name: *)
| SOp (op : Z)                       (* an opcode without immediate *)
| SPushN (op : Z) (i : imm)          (* PUSHn i *)
| SPush (i : imm)                    (* PUSH i *)
| SDup (n : Z) | SSwap (n : Z)       (* DUP n, SWAP n *)
| SDupN (n : Z) | SSwapN (n : Z)     (* DUPN n, SWAPN n *)
| SExchange (n m : Z).               (* EXCHANGE n m *)

(** How they are written. *)
Definition imm_token (i : imm) : token :=
  match i with Num n => TNumber n | Lab l => TLabelRef l end.
Definition stmt_tokens (s : stmt) : list token :=
  match s with
  | SLabel name => [TLabel name]
  | SOp op => [TIdent (WOp op)]
  | SPushN op i => [TIdent (WOp op); imm_token i]
  | SPush i => [TIdent WPush; imm_token i]
  | SDup n => [TIdent WDup; TNumber n]
  | SSwap n => [TIdent WSwap; TNumber n]
  | SDupN n => [TIdent (WOp 0xe6); TNumber n]
  | SSwapN n => [TIdent (WOp 0xe7); TNumber n]
  | SExchange n m => [TIdent (WOp 0xe8); TNumber n; TNumber m]
  end.
Definition program_tokens (p : list stmt) : list token := concat (map stmt_tokens p).

(** Opcodes written without operand, and PUSH1..PUSH32. *)
Definition stmt_wf (s : stmt) : Prop :=
  match s with
  | SOp op => ~ (0x60 <= op <= 0x7f) /\ ~ (0xe6 <= op <= 0xe8)
  | SPushN op _ => 0x60 <= op <= 0x7f
  | _ => True
  end.

(** Numbers are 256-bit, opcode names stand for bytes. *)
Definition token_ok (t : token) : Prop :=
  match t with
  | TNumber n => 0 <= n < 2 ^ 256
  | TIdent (WOp op) => is_byte op
  | _ => True
  end.

(** An opcode of the decoded program with its operand bytes. *)
Definition is_push (o : opcode) (v : Z) : Prop :=
  (opc o = 0x5f /\ immediate o = None /\ v = 0) \/
  (0x60 <= opc o <= 0x7f /\
   exists bs, immediate o = Some bs /\ Z.of_nat (length bs) = opc o - 0x5f /\
              Forall is_byte bs /\ evm_be bs = v).
Definition is_dup (o : opcode) (n : Z) : Prop :=
  (1 <= n <= 16 /\ opc o = 0x80 + n - 1 /\ immediate o = None) \/
  (opc o = 0xe6 /\ exists b, immediate o = Some [b] /\ is_byte b /\ decode_single b = Some n).
Definition is_swap (o : opcode) (n : Z) : Prop :=
  (1 <= n <= 16 /\ opc o = 0x90 + n - 1 /\ immediate o = None) \/
  (opc o = 0xe7 /\ exists b, immediate o = Some [b] /\ is_byte b /\ decode_single b = Some n).

(** The decoded instruction [o] is the one statement [s] asks for, labels being worth [addr]. *)
Definition imm_value_of (addr : nat -> option nat) (i : imm) (v : Z) : Prop :=
  match i with
  | Num n => v = n
  | Lab l => exists pc, addr l = Some pc /\ v = Z.of_nat pc
  end.
Definition denotes (addr : nat -> option nat) (s : stmt) (o : opcode) : Prop :=
  match s with
  | SLabel _ => False
  | SOp op => o = mkOpcode op None
  | SPushN op i => opc o = op /\ exists v, imm_value_of addr i v /\ is_push o v
  | SPush i => exists v, imm_value_of addr i v /\ is_push o v
  | SDup n => is_dup o n
  | SSwap n => is_swap o n
  | SDupN n => opc o = 0xe6 /\ is_dup o n
  | SSwapN n => opc o = 0xe7 /\ is_swap o n
  | SExchange n m => opc o = 0xe8 /\
      exists b, immediate o = Some [b] /\ is_byte b /\ decode_pair b = Some (n, m)
  end.

(** [aligned addr p its pc fin]: reading program [p] with decoded instructions [its] side by side from
    position [pc], every instruction statement meets the one decoded instruction it asks for, at the
    position the previous one ended, and [fin] is where the last one ends. *)
Inductive aligned (addr : nat -> option nat) : list stmt -> list (nat * opcode) -> nat -> nat -> Prop :=
| al_nil pc : aligned addr [] [] pc pc
| al_label name p its pc fin : aligned addr p its pc fin ->
    aligned addr (SLabel name :: p) its pc fin
| al_inst s o p its pc fin : denotes addr s o ->
    aligned addr p its (pc + length (item_bytes (pc, o))) fin ->
    aligned addr (s :: p) ((pc, o) :: its) pc fin.

(** The address of a label: the position of the first instruction after its (last) definition, or
    the end of the code. *)
Definition defines (p : list stmt) (k : nat) (name : nat) : Prop :=
  nth_error p k = Some (SLabel name) /\
  forall j, (k < j)%nat -> nth_error p j <> Some (SLabel name).
Fixpoint count_insts (p : list stmt) : nat :=
  match p with
  | [] => 0
  | SLabel _ :: p' => count_insts p'
  | _ :: p' => S (count_insts p')
  end.
Definition address (its : list (nat * opcode)) (fin i : nat) : nat :=
  match nth_error its i with Some (pc, _) => pc | None => fin end.

(** [addr] gives every label of [p] its address in [its]. *)
Definition addresses (p : list stmt) (its : list (nat * opcode)) (fin : nat)
  (addr : nat -> option nat) : Prop :=
  (forall name pc, addr name = Some pc ->
     exists k, defines p k name /\ pc = address its fin (count_insts (firstn k p))) /\
  (forall name, addr name = None -> forall k, ~ defines p k name).

(** The hardfork the code is decoded for has the EIP-8024 opcodes the program uses. *)
Definition enabled (tbl : optable) (s : stmt) : Prop :=
  match s with
  | SDup n => 16 < n -> tbl 0xe6 = true
  | SSwap n => 16 < n -> tbl 0xe7 = true
  | SDupN _ => tbl 0xe6 = true
  | SSwapN _ => tbl 0xe7 = true
  | SExchange _ _ => tbl 0xe8 = true
  | _ => True
  end.

(** A program the assembler has no reason to refuse: its operands are in range, the labels it uses
    are defined, numbers fit their PUSHn and labels are pushed by PUSH or by PUSH8 and wider. *)
Definition acceptable (p : list stmt) (s : stmt) : Prop :=
  match s with
  | SPushN op (Num v) => v < 256 ^ (op - 0x5f)
  | SPushN op (Lab l) => 0x67 <= op /\ In (SLabel l) p
  | SPush (Lab l) => In (SLabel l) p
  | SDup n | SSwap n => 1 <= n <= 235
  | SDupN n | SSwapN n => 17 <= n <= 235
  | SExchange n m => 1 <= n /\ n < m /\ m <= 16 /\ n + m <= 30
  | _ => True
  end.
