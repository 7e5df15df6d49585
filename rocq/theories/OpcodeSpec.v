(** Independent specifications for the opcode layer. *)
From Verif Require Import OpcodeModel.
Open Scope Z_scope.

(** Number of data bytes after an opcode byte, as the EVM's JUMPDEST analysis sees it (yellow
    paper, 9.4.3): only PUSH1..PUSH32 have any. EIP-8024 leaves this analysis unchanged. *)
Definition push_data_len (b : Z) : nat :=
  if (0x60 <=? b) && (b <=? 0x7f) then Z.to_nat (b - 0x5f) else 0%nat.

(** Number of immediate bytes of an opcode: PUSHn has n, and EIP-8024's DUPN, SWAPN, EXCHANGE one. *)
Definition immediate_len (b : Z) : nat :=
  if (b =? 0xe6) || (b =? 0xe7) || (b =? 0xe8) then 1%nat else push_data_len b.

(** Positions visited by the analysis. *)
Inductive evm_scan (code : list Z) : nat -> Prop :=
| scan_start : evm_scan code 0
| scan_next pc b : evm_scan code pc -> nth_error code pc = Some b ->
    evm_scan code (pc + 1 + push_data_len b).

Definition evm_valid_jumpdest (code : list Z) (pc : nat) : Prop :=
  evm_scan code pc /\ nth_error code pc = Some 0x5b.

(** The value an EVM PUSH at [pc] pushes: its n data bytes, bytes past the end of code being 0. *)
Definition byte_at (code : list Z) (k : nat) : Z := nth k code 0.
Fixpoint evm_push_bytes (code : list Z) (start n : nat) : list Z :=
  match n with
  | O => []
  | S n' => byte_at code start :: evm_push_bytes code (S start) n'
  end.
Fixpoint evm_be (l : list Z) : Z :=
  match l with
  | [] => 0
  | b :: l' => b * 256 ^ Z.of_nat (length l') + evm_be l'
  end.
Definition evm_push_value (code : list Z) (pc n : nat) : Z := evm_be (evm_push_bytes code (pc + 1) n).

Definition is_byte (b : Z) : Prop := 0 <= b < 256.

(** The code bytes an iterated instruction stands for: its opcode byte and its immediate. *)
Definition item_bytes (it : nat * opcode) : list Z :=
  opc (snd it) :: match immediate (snd it) with Some i => i | None => [] end.

(** The EIP-8024 side condition: no enabled DUPN/SWAPN/EXCHANGE visited by the scan is followed
    by a PUSH opcode byte. *)
Definition no_push_immediate (tbl : optable) (code : list Z) : Prop :=
  forall pc b b', evm_scan code pc -> nth_error code pc = Some b ->
    In b [0xe6; 0xe7; 0xe8] -> tbl b = true -> nth_error code (pc + 1) = Some b' ->
    push_data_len b' = 0%nat.

Definition pushes_active (tbl : optable) : Prop :=
  forall b, 0x60 <= b <= 0x7f -> tbl b = true.

(** EIP-8024 operands: depths expressible by one operand, and pairs expressible by EXCHANGE. *)
Definition depth_ok (n : Z) : Prop := 17 <= n <= 235.
Definition pair_ok (n m : Z) : Prop := 1 <= n /\ n < m /\ n + m <= 30.
