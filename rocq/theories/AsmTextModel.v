(** [parse_asm]: the assembler from the text to the bytecode.

    Source: crates/revmc-codegen/src/bytecode/asm.rs:34-38. *)
From Verif Require Export AsmModel TokModel.
Open Scope Z_scope.

(** Names of labels, as numbers: the position of the first equal name in [names]. The code compares the
    strings themselves (asm.rs:680-700); AsmModel.v knows labels by number. *)
Fixpoint label_no (names : list text) (n : text) : nat :=
  match names with
  | [] => O
  | m :: ms => if text_eqb m n then O else S (label_no ms n)
  end.

(** The names in label definitions and references. *)
Definition label_names (ts : list tok) : list text :=
  map t_src (filter (fun t => match t_kind t with KLabel | KLabelRef => true | _ => false end) ts).

Section Text.
  (** [OpCode::parse] (revm), asm.rs:524. *)
  Variable opcode : text -> option Z.

  (** The comparisons [parse_items] makes on a word, asm.rs:492-527: [PUSH], [DUP], [SWAP], opcodes. *)
  Definition word_of (w : text) : word :=
    if text_eqb w [80; 85; 83; 72] then WPush
    else if text_eqb w [68; 85; 80] then WDup
    else if text_eqb w [83; 87; 65; 80] then WSwap
    else match opcode w with Some op => WOp op | None => WBad end.

  (** A token as [parse_items] distinguishes them, asm.rs:482-576. *)
  Definition token_of (names : list text) (t : tok) : token :=
    match t_kind t with
    | KLabel => match t_src t with [] => TOther | _ => TLabel (label_no names (t_src t)) end
    | KIdent => TIdent (word_of (t_src t))
    | KNumber n => TNumber n
    | KLabelRef => TLabelRef (label_no names (t_src t))
    | _ => TOther
    end.

  (** [parse_asm], asm.rs:34-38. *)
  Definition parse_asm (parse : text -> option Z) (fuel : nat) (s : text) : outcome (list Z) :=
    match preprocess parse s with
    | Some ts => assemble fuel (map (token_of (label_names ts)) ts)
    | None => AErr
    end.
End Text.
