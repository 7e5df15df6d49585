(** Model of the bytecode listing and the line numbers of the debug information: [collect_lines], [display_plain],
    [abbreviate_hex] (crates/revmc-codegen/src/bytecode/fmt.rs:19-193, 496-523), [take_inst_lines]
    (bytecode/mod.rs:352-357) and the lookup of a source line (compiler/mod.rs:1060-1062). Texts are lists of ASCII
    characters. Not modelled: the contents of headers and of the opcode texts (parameters), the parsing of LLVM's
    dumps, colors (TokModel), the DOT graph except its constants. *)
From Coq Require Export List Arith Bool Lia Ascii String.
From Coq Require Export DecimalString.
Export ListNotations.

Definition text := list ascii.
Definition lit (s : string) : text := list_ascii_of_string s.
Definition sp : ascii := " "%char.
Definition nl : ascii := Ascii.ascii_of_nat 10.
Definition cr : ascii := Ascii.ascii_of_nat 13.
Definition dec (n : nat) : text := lit (NilEmpty.string_of_uint (Nat.to_uint n)).
(** [{:>w$}] and [{:<w$}] of core::fmt. *)
Definition pad_left (w : nat) (t : text) : text := repeat sp (w - List.length t) ++ t.
Definition pad_right (w : nat) (t : text) : text := t ++ repeat sp (w - List.length t).
(** [decimal_width], fmt.rs:496-498; simplified: the length of the decimal. *)
Definition decimal_width (n : nat) : nat := List.length (dec n).

(** A block: its header, the comment beside it, its instructions in order. *)
Record block := mkB { b_header : text; b_comment : text; b_insts : list nat }.
(** What the listing is made from: number of instructions, the two head comments, blocks, [is_dead_code], the text
    after the indentation (fmt.rs:99-125), program counters, and the comment after the program counter
    (fmt.rs:131-166). *)
Record bytecode := mkL { l_n : nat; l_head1 : text; l_head2 : text; l_blocks : list block; l_dead : nat -> bool;
  l_op : nat -> text; l_pc : nat -> nat; l_rest : nat -> text }.

(** The widths, fmt.rs:23-33. *)
Definition shown (L : bytecode) : list nat := filter (fun i => negb (l_dead L i)) (flat_map b_insts (l_blocks L)).
Definition ic_width (L : bytecode) : nat := decimal_width (fold_left Nat.max (shown L) 0).
Definition pc_width (L : bytecode) : nat := decimal_width (fold_left Nat.max (map (l_pc L) (shown L)) 0).

(** The text and the comment of an instruction, fmt.rs:99-166. *)
Definition inst_text (L : bytecode) (i : nat) : text := lit "  " ++ l_op L i.
Definition inst_comment (L : bytecode) (i : nat) : text :=
  lit "ic=" ++ pad_left (ic_width L) (dec i) ++ lit " pc=" ++ pad_left (pc_width L) (dec (l_pc L i)) ++ l_rest L i.

Definition lines_t := list (text * text).
(** [inst_lines[inst] = x]. *)
Fixpoint set (m : list nat) (i x : nat) : list nat :=
  match m, i with
  | [], _ => []
  | _ :: m', O => x :: m'
  | y :: m', S i' => y :: set m' i' x
  end.
Definition is_nil (t : text) : bool := match t with [] => true | _ => false end.
(** One instruction of the loop, fmt.rs:90-168. *)
Definition add_inst (L : bytecode) (st : lines_t * list nat) (i : nat) : lines_t * list nat :=
  let '(lines, m) := st in
  if l_dead L i then (lines, m)
  else (lines ++ [(inst_text L i, inst_comment L i)], set m i (List.length lines + 1)).
(** A blank line unless the last one is, fmt.rs:54-59. *)
Definition add_blank (lines : lines_t) : lines_t :=
  match rev lines with
  | (t, c) :: _ => if negb (is_nil t) || negb (is_nil c) then lines ++ [([], [])] else lines
  | [] => lines
  end.
(** One block of the loop, fmt.rs:53-170. *)
Definition add_block (L : bytecode) (st : lines_t * list nat) (b : block) : lines_t * list nat :=
  let '(lines, m) := st in
  fold_left (add_inst L) (b_insts b) (add_blank lines ++ [(b_header b, b_comment b)], m).
(** [collect_lines], fmt.rs:19-174: the lines and the map left in [inst_lines]. *)
Definition collect_lines (L : bytecode) : lines_t * list nat :=
  fold_left (add_block L) (l_blocks L) ([([], l_head1 L); ([], l_head2 L); ([], [])], repeat 0 (l_n L)).
(** [take_inst_lines], bytecode/mod.rs:352-357. *)
Definition inst_lines (L : bytecode) : list nat := snd (collect_lines L).

(** [display_plain], fmt.rs:177-193. *)
Definition comment_col (lines : lines_t) : nat := Nat.min 20 (Nat.max 4 (fold_left Nat.max (map (fun l => List.length (fst l)) lines) 0)).
Definition line (col : nat) (l : text * text) : text :=
  let '(t, c) := l in
  if is_nil t && is_nil c then []
  else if is_nil c then t
  else if is_nil t then lit "; " ++ c
  else pad_right col t ++ lit " ; " ++ c.
Definition display_plain (L : bytecode) : text :=
  let lines := fst (collect_lines L) in flat_map (fun l => line (comment_col lines) l ++ [nl]) lines.

(** [str::lines] (core): split at line feeds, drop a carriage return before each, no last empty line. *)
Definition strip_cr (t : text) : text := match rev t with c :: r => if Ascii.eqb c cr then rev r else t | [] => t end.
Fixpoint lines_from (cur t : text) : list text :=
  match t with
  | [] => match cur with [] => [] | _ => [rev cur] end
  | c :: t' => if Ascii.eqb c nl then strip_cr (rev cur) :: lines_from [] t' else lines_from (c :: cur) t'
  end.
Definition lines_of (t : text) : list text := lines_from [] t.
(** [str::trim] on ASCII. *)
Definition is_space (c : ascii) : bool := let n := nat_of_ascii c in (n =? 32) || ((9 <=? n) && (n <=? 13)).
Fixpoint trim_start (t : text) : text := match t with c :: t' => if is_space c then trim_start t' else t | [] => [] end.
Definition trim (t : text) : text := rev (trim_start (rev (trim_start t))).
(** The end of [resolve_dbg_line], compiler/mod.rs:1060-1062: from the number in the debug location to the line. *)
Definition resolve (src : list text) (line_no : nat) : option text :=
  match line_no with
  | O => None
  | S idx => match nth_error src idx with
             | Some l => if is_nil (trim l) then None else Some (trim l)
             | None => None
             end
  end.

(** [abbreviate_hex], fmt.rs:502-523. *)
Fixpoint find_0x (s : text) : option (text * text) := (* before and after the first "0x" *)
  match s with
  | a :: ((b :: s'') as s') =>
      if Ascii.eqb a "0" && Ascii.eqb b "x" then Some ([], s'')
      else match find_0x s' with Some (p, h) => Some (a :: p, h) | None => None end
  | _ => None
  end.
(** [chunks(2).take_while(..).count()]. *)
Fixpoint run_len (x y : ascii) (h : text) : nat :=
  match h with
  | a :: b :: h' => if Ascii.eqb a x && Ascii.eqb b y then S (run_len x y h') else 0
  | _ => 0
  end.
Definition abbreviate_hex (s : text) : text :=
  match find_0x s with
  | None => s
  | Some (pre, h) =>
      if List.length h <? 8 then s
      else match h with
           | x :: y :: _ =>
               let r := run_len x y h in
               if r <? 4 then s else pre ++ lit "0x" ++ [x; y] ++ lit ".." ++ skipn (r * 2) h
           | _ => s
           end
  end.
