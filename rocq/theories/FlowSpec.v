(** The EVM's control flow and stack over a list of instructions: what the analyses are judged
    against. Only opcode, stack effect and the disabled/unknown bits of an instruction are read;
    gas, memory and everything else live in an arbitrary state [Y] with arbitrary semantics. *)
From Verif Require Import InstModel ArithSpec.
Open Scope Z_scope.

(** Exchange two stack slots; [None] if one of them does not exist. Stacks are listed top first. *)
Fixpoint set_nth {A} (k : nat) (v : A) (l : list A) : list A :=
  match k, l with
  | _, [] => []
  | O, _ :: l' => v :: l'
  | S k', x :: l' => x :: set_nth k' v l'
  end.
Definition exchange {A} (a b : nat) (l : list A) : option (list A) :=
  match nth_error l a, nth_error l b with
  | Some x, Some y => Some (set_nth a y (set_nth b x l))
  | _, _ => None
  end.

(** EIP-8024 operands, from the EIP's text. *)
Definition eip_single (x : Z) : option nat :=
  if (0x5b <=? x) && (x <=? 0x7f) then None else Some (Z.to_nat ((x + 145) mod 256)).
Definition eip_pair (x : Z) : option (nat * nat) :=
  if (0x52 <=? x) && (x <=? 0x7f) then None
  else let k := Z.lxor x 143 in
       let q := k / 16 in let r := k mod 16 in
       if q <? r then Some (Z.to_nat (q + 1), Z.to_nat (r + 1)) else Some (Z.to_nat (r + 1), Z.to_nat (29 - q)).

Section Evm.
  Context {Y : Type}.
  (** The program; the constant attached to an instruction (pushed value, immediate byte or pc); the
      index of the JUMPDEST a 256-bit value designates, if it is a valid one. *)
  Variable prog : list idata.
  Variable const : nat -> Z.
  Variable dest : Z -> option nat.
  (** All other instructions: results pushed and new state, or [None] if the frame stops or fails. *)
  Variable sem : nat -> list Z -> Y -> option (list Z * Y).

  Definition keep (i : nat) (y : Y) (r : option (list Z)) : option (nat * list Z * Y) :=
    match r with Some st => Some (i, st, y) | None => None end.

  (** One instruction: next index, stack and state; [None] if the frame ends here. *)
  Definition evm_exec (i : nat) (d : idata) (st : list Z) (y : Y) : option (nat * list Z * Y) :=
    let op := d_op d in
    if f_disabled (d_flags d) || f_unknown (d_flags d) then None
    else if (0x5f <=? op) && (op <=? 0x7f) then Some (S i, const i :: st, y)
    else if op =? 0x50 then match st with _ :: st' => Some (S i, st', y) | [] => None end
    else if (0x80 <=? op) && (op <=? 0x8f) then
      match nth_error st (Z.to_nat (op - 0x80)) with Some v => Some (S i, v :: st, y) | None => None end
    else if (0x90 <=? op) && (op <=? 0x9f) then keep (S i) y (exchange 0 (Z.to_nat (op - 0x8f)) st)
    else if op =? 0xe6 then
      match eip_single (const i) with
      | Some n => match nth_error st (n - 1) with Some v => Some (S i, v :: st, y) | None => None end
      | None => None
      end
    else if op =? 0xe7 then
      match eip_single (const i) with Some n => keep (S i) y (exchange 0 n st) | None => None end
    else if op =? 0xe8 then
      match eip_pair (const i) with Some (n, m) => keep (S i) y (exchange n m st) | None => None end
    else if op =? 0x56 then
      match st with t :: st' => match dest t with Some j => Some (j, st', y) | None => None end | _ => None end
    else if op =? 0x57 then
      match st with
      | t :: c :: st' =>
          if c =? 0 then Some (S i, st', y)
          else match dest t with Some j => Some (j, st', y) | None => None end
      | _ => None
      end
    else if existsb (Z.eqb op) [0x00; 0xf3; 0xfd; 0xfe; 0xff] then None
    else
      let inp := Z.to_nat (fst (d_io d)) in
      if (length st <? inp)%nat then None
      else match sem i (firstn inp st) y with
           | Some (outs, y') => Some (S i, outs ++ skipn inp st, y')
           | None => None
           end.

  Definition evm_step (i : nat) (st : list Z) (y : Y) : option (nat * list Z * Y) :=
    match nth_error prog i with
    | None => None
    | Some d =>
        match evm_exec i d st y with
        | Some (j, st', y') => if (length st' <=? 1024)%nat then Some (j, st', y') else None
        | None => None
        end
    end.

  (** States an execution of the contract can be in (before executing instruction [i]). *)
  Inductive reach (y0 : Y) : nat -> list Z -> Y -> Prop :=
  | reach_start : reach y0 0 [] y0
  | reach_step i st y j st' y' : reach y0 i st y -> evm_step i st y = Some (j, st', y') -> reach y0 j st' y'.

  (** What is assumed of [sem]: it returns as many words as the table says, the pure instructions
      compute what the EVM defines, CODESIZE and PC what they should. *)
  Record sem_ok (code_len : Z) : Prop := {
    so_len : forall i d args y outs y', nth_error prog i = Some d -> sem i args y = Some (outs, y') ->
      length outs = Z.to_nat (snd (d_io d)) /\ Forall is_word outs;
    so_arith : forall i d o args y outs y' r, nth_error prog i = Some d -> d_op d = aop_code o ->
      sem i args y = Some (outs, y') -> evm_arith o args = Some r -> outs = [r];
    so_codesize : forall i d args y outs y', nth_error prog i = Some d -> d_op d = 0x38 ->
      sem i args y = Some (outs, y') -> outs = [code_len];
    so_pc : forall i d args y outs y', nth_error prog i = Some d -> d_op d = 0x58 ->
      sem i args y = Some (outs, y') -> outs = [const i]
  }.

  (** Well-formed program: constants are words (bytes for EIP-8024 immediates), valid destinations are
      JUMPDESTs of the program, stack effects of the stack and jump instructions are the EVM's, jumps exist
      in every hardfork. *)
  Record prog_ok : Prop := {
    po_const : forall i, is_word (const i);
    po_byte : forall i d, nth_error prog i = Some d -> 0xe6 <= d_op d <= 0xe8 -> 0 <= const i < 256;
    po_dest : forall v j, dest v = Some j -> exists d, nth_error prog j = Some d /\ d_op d = 0x5b;
    po_io : forall i d, nth_error prog i = Some d -> f_disabled (d_flags d) || f_unknown (d_flags d) = false ->
      0 <= fst (d_io d) /\ 0 <= snd (d_io d) /\
      (0x5f <= d_op d <= 0x7f -> d_io d = (0, 1)) /\
      (d_op d = 0x50 -> d_io d = (1, 0)) /\
      (0x80 <= d_op d <= 0x8f -> d_io d = (d_op d - 0x7f, d_op d - 0x7e)) /\
      (0x90 <= d_op d <= 0x9f -> d_io d = (d_op d - 0x8e, d_op d - 0x8e)) /\
      (d_op d = 0xe6 -> forall n, eip_single (const i) = Some n -> d_io d = (Z.of_nat n, Z.of_nat n + 1)) /\
      (d_op d = 0xe7 -> forall n, eip_single (const i) = Some n -> d_io d = (Z.of_nat n + 1, Z.of_nat n + 1)) /\
      (d_op d = 0xe8 -> forall n m, eip_pair (const i) = Some (n, m) -> d_io d = (Z.of_nat m + 1, Z.of_nat m + 1)) /\
      (d_op d = 0x56 -> d_io d = (1, 0)) /\
      (d_op d = 0x57 -> d_io d = (2, 0)) /\
      (d_op d = 0x5b -> d_io d = (0, 0));
    po_jump : forall i d, nth_error prog i = Some d -> d_op d = 0x56 \/ d_op d = 0x57 ->
      f_disabled (d_flags d) || f_unknown (d_flags d) = false;
    po_io_off : forall i d, nth_error prog i = Some d -> f_disabled (d_flags d) || f_unknown (d_flags d) = true ->
      d_io d = (0, 0)
  }.
End Evm.
