(** Model of revmc's assembler: from tokens to bytecode.

    Source: crates/revmc-codegen/src/bytecode/asm.rs. This file starts from the token
    stream; TokModel.v has the tokenizer and the macro expander (asm.rs:40-438), AsmTextModel.v puts them
    together. Label names are [nat]. *)
From Verif Require Export OpcodeModel.
Open Scope Z_scope.

(** An identifier token after the string comparisons of asm.rs:492-527. [WOp op] stands for a name
    [OpCode::parse] (revm) maps to [op]; [WBad] for a name it rejects. *)
Inductive word := WPush | WDup | WSwap | WOp (op : Z) | WBad.

(** [TokenKind], as far as [parse_items] tells tokens apart (asm.rs:481-577). A label token with an
    empty name (asm.rs:485) is a [TOther]. *)
Inductive token :=
| TLabel (name : nat)
| TIdent (w : word)
| TNumber (n : Z)
| TLabelRef (name : nat)
| TOther.

(** [Imm], asm.rs:460-465. *)
Inductive imm := Num (n : Z) | Lab (name : nat).
(** [PushKind], asm.rs:468-475. *)
Inductive push_kind := PNone | PFixed (size : nat) | PAuto.
(** [Item] and [Inst], asm.rs:445-457. *)
Inductive item :=
| ILabel (name : nat)
| IInst (opcode : Z) (i : option imm) (k : push_kind).

(** [expect_number_u8], asm.rs:582-597: the number and the remaining tokens. *)
Definition expect_number_u8 (toks : list token) : option (Z * list token) :=
  match toks with
  | TNumber n :: rest => if n <? 256 then Some (n, rest) else None
  | _ => None
  end.

(** [expect_imm], asm.rs:600-612. *)
Definition expect_imm (toks : list token) : option (imm * list token) :=
  match toks with
  | TNumber n :: rest => Some (Num n, rest)
  | TLabelRef l :: rest => Some (Lab l, rest)
  | _ => None
  end.

Definition OP_DUP1 := 0x80.
Definition OP_SWAP1 := 0x90.

(** One round of the loop of [parse_items], asm.rs:481-575: the item and the remaining tokens.
    [opc.info().immediate_size()] is [min_imm_len] (both read revm's [OPCODE_INFO]). *)
Definition parse_item (toks : list token) : option (item * list token) :=
  match toks with
  | TLabel name :: rest => Some (ILabel name, rest)
  | TIdent WPush :: rest =>
      match expect_imm rest with
      | Some (i, rest') => Some (IInst 0 (Some i) PAuto, rest')
      | None => None
      end
  | TIdent WDup :: rest =>
      match expect_number_u8 rest with
      | Some (n, rest') =>
          if n <? 1 then None
          else if n <=? 16 then Some (IInst (OP_DUP1 + n - 1) None PNone, rest')
          else match encode_single n with
               | Some raw => Some (IInst OP_DUPN (Some (Num raw)) (PFixed 1), rest')
               | None => None
               end
      | None => None
      end
  | TIdent WSwap :: rest =>
      match expect_number_u8 rest with
      | Some (n, rest') =>
          if n <? 1 then None
          else if n <=? 16 then Some (IInst (OP_SWAP1 + n - 1) None PNone, rest')
          else match encode_single n with
               | Some raw => Some (IInst OP_SWAPN (Some (Num raw)) (PFixed 1), rest')
               | None => None
               end
      | None => None
      end
  | TIdent (WOp op) :: rest =>
      if (op =? OP_DUPN) || (op =? OP_SWAPN) then
        match expect_number_u8 rest with
        | Some (n, rest') =>
            match encode_single n with
            | Some raw => Some (IInst op (Some (Num raw)) (PFixed 1), rest')
            | None => None
            end
        | None => None
        end
      else if op =? OP_EXCHANGE then
        match expect_number_u8 rest with
        | Some (n, rest1) =>
            match expect_number_u8 rest1 with
            | Some (m, rest2) =>
                match encode_pair n m with
                | Some raw => Some (IInst op (Some (Num raw)) (PFixed 1), rest2)
                | None => None
                end
            | None => None
            end
        | None => None
        end
      else
        let imm_len := min_imm_len op in
        if (0 <? imm_len)%nat then
          match expect_imm rest with
          | Some (i, rest') => Some (IInst op (Some i) (PFixed imm_len), rest')
          | None => None
          end
        else
          match rest with
          | TNumber _ :: _ => None
          | _ => Some (IInst op None PNone, rest)
          end
  | _ => None
  end.

(** [parse_items], asm.rs:478-579. Every round consumes a token, so the number of tokens is enough
    fuel; running out of it counts as an error and cannot happen. *)
Fixpoint parse_loop_items (fuel : nat) (toks : list token) : option (list item) :=
  match toks with
  | [] => Some []
  | _ =>
      match fuel with
      | O => None
      | S fuel' =>
          match parse_item toks with
          | None => None
          | Some (it, rest) =>
              match parse_loop_items fuel' rest with
              | None => None
              | Some its => Some (it :: its)
              end
          end
      end
  end.
Definition parse_items (toks : list token) : option (list item) :=
  parse_loop_items (length toks) toks.

(** Length of [U256::to_be_bytes_trimmed_vec] (ruint): the number of bytes without leading zeros. *)
Definition bytes_len (v : Z) : nat := if v =? 0 then 0%nat else Z.to_nat (Z.log2 v / 8 + 1).
(** The [n] low bytes of [v], most significant first. *)
Fixpoint be_bytes (n : nat) (v : Z) : list Z :=
  match n with
  | O => []
  | S n' => (v / 256 ^ Z.of_nat n') mod 256 :: be_bytes n' v
  end.
Definition trimmed (v : Z) : list Z := be_bytes (bytes_len v) v.

(** [encode_imm], asm.rs:619-636. [None] = the error. *)
Definition encode_imm (v : Z) (size : option nat) : option (list Z) :=
  let bytes := trimmed v in
  match size with
  | None => Some bytes
  | Some size =>
      if (length bytes <=? size)%nat then Some (repeat 0 (size - length bytes) ++ bytes)
      else None
  end.

(** [min_push_width], asm.rs:639-646. *)
Definition min_push_width (val : nat) : nat :=
  if (val =? 0)%nat then 0%nat
  else
    let bits := Z.log2 (Z.of_nat val) + 1 in
    Z.to_nat ((bits + 7) / 8).

(** Outcome of assembling: [ALoop] = the layout loop used up its fuel, [APanic] = an [unwrap] of a
    missing immediate or the [unreachable!]. *)
Inductive outcome (A : Type) := AOk (a : A) | AErr | ALoop | APanic.
Arguments AOk {A}. Arguments AErr {A}. Arguments ALoop {A}. Arguments APanic {A}.

(** [HashMap<&str, usize>]: newest entry first. *)
Definition labels := list (nat * nat).
Fixpoint get_label (name : nat) (m : labels) : option nat :=
  match m with
  | [] => None
  | (n, pc) :: m' => if (n =? name)%nat then Some pc else get_label name m'
  end.

(** Bytes an item occupies in a layout pass, asm.rs:691-707. [w] is [auto_widths[i]]. usize
    overflow of [pc] is not modelled. *)
Definition item_size (it : item) (w : nat) : nat :=
  match it with
  | ILabel _ => 0
  | IInst _ i k =>
      1 + match k with
          | PNone => 0
          | PFixed n => n
          | PAuto =>
              match i with
              | Some (Lab _) => w
              | Some (Num v) => length (trimmed v)
              | None => 0
              end
          end
  end.

(** The layout pass, asm.rs:683-709. *)
Fixpoint label_pcs (items : list item) (widths : list nat) (pc : nat) (m : labels) : labels :=
  match items, widths with
  | it :: items', w :: widths' =>
      let m' := match it with ILabel name => (name, pc) :: m | _ => m end in
      label_pcs items' widths' (pc + item_size it w) m'
  | _, _ => m
  end.

(** The growth pass over [auto_label_indices], asm.rs:711-724: new widths and [changed], or [None]
    for an undefined label. *)
Fixpoint grow (m : labels) (items : list item) (widths : list nat) : option (list nat * bool) :=
  match items, widths with
  | it :: items', w :: widths' =>
      match it with
      | IInst _ (Some (Lab name)) PAuto =>
          match get_label name m with
          | None => None
          | Some target =>
              let needed := min_push_width target in
              match grow m items' widths' with
              | None => None
              | Some (ws, changed) =>
                  if (w <? needed)%nat then Some (needed :: ws, true) else Some (w :: ws, changed)
              end
          end
      | _ =>
          match grow m items' widths' with
          | None => None
          | Some (ws, changed) => Some (w :: ws, changed)
          end
      end
  | _, _ => Some ([], false)
  end.

(** The loop, asm.rs:682-729: the final widths and labels. *)
Fixpoint layout (fuel : nat) (items : list item) (widths : list nat)
  : outcome (list nat * labels) :=
  match fuel with
  | O => ALoop
  | S fuel' =>
      let m := label_pcs items widths 0 [] in
      match grow m items widths with
      | None => AErr
      | Some (widths', true) => layout fuel' items widths'
      | Some (widths', false) => AOk (widths', m)
      end
  end.

(** [resolve_imm], asm.rs:769-777. *)
Definition resolve_imm (i : imm) (m : labels) : option Z :=
  match i with
  | Num v => Some v
  | Lab name => option_map Z.of_nat (get_label name m)
  end.

(** One item of the final emit, asm.rs:733-762. *)
Definition emit_item (m : labels) (it : item) (w : nat) : outcome (list Z) :=
  match it with
  | ILabel _ => AOk []
  | IInst op i k =>
      match k with
      | PNone => AOk [op]
      | PFixed size =>
          match i with
          | None => APanic
          | Some i =>
              match resolve_imm i m with
              | None => AErr
              | Some v =>
                  match encode_imm v (Some size) with
                  | None => AErr
                  | Some bytes => AOk (op :: bytes)
                  end
              end
          end
      | PAuto =>
          match i with
          | None => APanic
          | Some i =>
              match resolve_imm i m with
              | None => AErr
              | Some v =>
                  let width := match i with Lab _ => w | Num _ => length (trimmed v) end in
                  if (0 <? width)%nat then
                    match encode_imm v (Some width) with
                    | None => AErr
                    | Some bytes => AOk (OP_PUSH0 + Z.of_nat width :: bytes)
                    end
                  else AOk [OP_PUSH0 + Z.of_nat width]
              end
          end
      end
  end.

(** [emit_inst_no_labels], asm.rs:780-805. *)
Definition emit_no_labels (it : item) : outcome (list Z) :=
  match it with
  | ILabel _ => AOk []
  | IInst op i k =>
      match k with
      | PNone => AOk [op]
      | PFixed size =>
          match i with
          | Some (Num v) =>
              match encode_imm v (Some size) with
              | None => AErr
              | Some bytes => AOk (op :: bytes)
              end
          | _ => APanic
          end
      | PAuto =>
          match i with
          | Some (Num v) =>
              match encode_imm v None with
              | None => AErr
              | Some bytes => AOk (OP_PUSH0 + Z.of_nat (length bytes) :: bytes)
              end
          | _ => APanic
          end
      end
  end.

(** Appending the bytes of item after item; the first failure ends it. *)
Fixpoint emit_all (f : item -> nat -> outcome (list Z)) (items : list item) (widths : list nat)
  : outcome (list Z) :=
  match items, widths with
  | it :: items', w :: widths' =>
      match f it w with
      | AOk bytes =>
          match emit_all f items' widths' with
          | AOk rest => AOk (bytes ++ rest)
          | e => e
          end
      | e => e
      end
  | _, _ => AOk []
  end.

(** [has_any_label], asm.rs:650-665. *)
Definition mentions_label (it : item) : bool :=
  match it with
  | ILabel _ => true
  | IInst _ (Some (Lab _)) _ => true
  | _ => false
  end.

(** [layout_and_emit], asm.rs:649-766. [fuel] bounds the rounds of the layout loop. *)
Definition layout_and_emit (fuel : nat) (items : list item) : outcome (list Z) :=
  let widths := repeat 0%nat (length items) in
  if existsb mentions_label items then
    match layout fuel items widths with
    | AOk (ws, m) => emit_all (emit_item m) items ws
    | AErr => AErr
    | ALoop => ALoop
    | APanic => APanic
    end
  else emit_all (fun it _ => emit_no_labels it) items widths.

(** [parse_asm] after tokenizing and macro expansion. *)
Definition assemble (fuel : nat) (toks : list token) : outcome (list Z) :=
  match parse_items toks with
  | None => AErr
  | Some items => layout_and_emit fuel items
  end.
