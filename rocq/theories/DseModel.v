(** Model of dead store elimination.

    Source: crates/revmc-codegen/src/bytecode/passes/dead_store_elim.rs (cited as "dse").
    The [BitVec] of live positions is a [list bool]; [None] is a panic (index out of range). Heights
    are [i32] values used as [usize]: a negative height is an enormous index, so every access with a
    negative position is out of range. Tracing and the [eliminated] counter are omitted. *)
From Verif Require Export BlockModel.
Open Scope Z_scope.

(** [live[pos]] and [live.set(pos, b)]. *)
Definition lget (live : list bool) (pos : Z) : option bool :=
  if pos <? 0 then None else nth_error live (Z.to_nat pos).
Definition lset (live : list bool) (pos : Z) (b : bool) : option (list bool) :=
  match lget live pos with Some _ => Some (upd_nth (Z.to_nat pos) (fun _ => b) live) | None => None end.

Notation "'let?' x := e 'in' k" := (match e with Some x => k | None => None end)
  (at level 200, x pattern, e at level 200, k at level 200).

(** [DecodedImm], dse:22-27, with the decoding at 99-107; [imm] is [data.imm_byte()]. *)
Inductive dimm := DSingle (n : Z) | DPair (n m : Z) | DNone.
Definition decode_imm (op imm : Z) : dimm :=
  if (op =? OP_DUPN) || (op =? OP_SWAPN) then match decode_single imm with Some n => DSingle n | None => DNone end
  else if op =? OP_EXCHANGE then match decode_pair imm with Some (n, m) => DPair n m | None => DNone end
  else DNone.

Definition is_dup16 (op : Z) : bool := (0x80 <=? op) && (op <=? 0x8f).
Definition is_swap16 (op : Z) : bool := (0x90 <=? op) && (op <=? 0x9f).

(** [can_skip_when_dead], dse:159-221, by opcode number (revm_bytecode::opcode). *)
Definition can_skip_list : list Z :=
  [0x01 (*ADD*); 0x02 (*MUL*); 0x03 (*SUB*); 0x0b (*SIGNEXTEND*);
   0x04 (*DIV*); 0x05 (*SDIV*); 0x06 (*MOD*); 0x07 (*SMOD*); 0x08 (*ADDMOD*); 0x09 (*MULMOD*);
   0x10 (*LT*); 0x11 (*GT*); 0x12 (*SLT*); 0x13 (*SGT*); 0x14 (*EQ*); 0x15 (*ISZERO*);
   0x16 (*AND*); 0x17 (*OR*); 0x18 (*XOR*); 0x19 (*NOT*); 0x1a (*BYTE*);
   0x1b (*SHL*); 0x1c (*SHR*); 0x1d (*SAR*); 0x1e (*CLZ*);
   OP_DUPN; OP_SWAPN; OP_EXCHANGE; 0x58 (*PC*); 0x38 (*CODESIZE*);
   0x30 (*ADDRESS*); 0x32 (*ORIGIN*); 0x33 (*CALLER*); 0x34 (*CALLVALUE*); 0x35 (*CALLDATALOAD*);
   0x36 (*CALLDATASIZE*); 0x3a (*GASPRICE*); 0x3d (*RETURNDATASIZE*); 0x41 (*COINBASE*);
   0x42 (*TIMESTAMP*); 0x43 (*NUMBER*); 0x44 (*DIFFICULTY*); 0x45 (*GASLIMIT*); 0x46 (*CHAINID*);
   0x48 (*BASEFEE*); 0x4a (*BLOBBASEFEE*); 0x49 (*BLOBHASH*); 0x4b (*SLOTNUM*)].
Definition can_skip (op : Z) : bool :=
  existsb (Z.eqb op) can_skip_list || is_dup16 op || is_swap16 op || ((OP_PUSH0 <=? op) && (op <=? OP_PUSH32)).

(** The guard [(m as usize) < h_before]; a negative [h] is an enormous [usize]. *)
Definition below (m h : Z) : bool := (h <? 0) || (m <? h).

(** [swap_all_dead], dse:382-385, and the two-position check of EXCHANGE, 363-366. *)
Definition both_dead (live : list bool) (a b : Z) : option bool :=
  let? x := lget live a in
  if x then Some false else let? y := lget live b in Some (negb y).

(** The generic check [(0..out).all(..)], dse:370-376. *)
Definition dead_at (live : list bool) (pos : Z) : bool :=
  match lget live pos with Some b => negb b | None => false end.
Definition outputs_dead (live : list bool) (base : Z) (out : nat) : bool :=
  forallb (fun k => dead_at live (base + Z.of_nat k)) (seq 0 out).

(** [all_outputs_dead], dse:343-379. *)
Definition all_outputs_dead (live : list bool) (op h : Z) (inp out : nat) (imm : dimm) : option bool :=
  if is_swap16 op then both_dead live (h - 1) (h - 1 - (op - 0x90 + 1))
  else if (op =? OP_SWAPN) && match imm with DSingle d => below d h | _ => false end
       then match imm with DSingle d => both_dead live (h - 1) (h - 1 - d) | _ => Some false end
  else if is_dup16 op then option_map negb (lget live h)
  else if (op =? OP_DUPN) && match imm with DSingle _ => true | _ => false end then option_map negb (lget live h)
  else if (op =? OP_EXCHANGE) && match imm with DPair n m => below m h | _ => false end
       then match imm with DPair n m => both_dead live (h - 1 - n) (h - 1 - m) | _ => Some false end
  else if (op =? OP_DUPN) || (op =? OP_SWAPN) || (op =? OP_EXCHANGE) then Some false
  else if (0 <? out)%nat then Some (outputs_dead live (h - Z.of_nat inp) out)
  else Some false.

(** [transfer_swap], dse:330-336, and the body of the EXCHANGE arm, 273-279. *)
Definition swap_live (live : list bool) (pa pb : Z) : option (list bool) :=
  let? a := lget live pa in
  let? b := lget live pb in
  let? live1 := lset live pa b in
  lset live1 pb a.
(** [transfer_dup], dse:388-396. *)
Definition dup_live (live : list bool) (h depth : Z) : option (list bool) :=
  let? t := lget live h in
  let? live1 := lset live h false in
  if t then lset live1 (h - depth) true else Some live1.
(** The two loops of [generic_transfer], dse:306-308 and 318-326. *)
Fixpoint kill_outputs (live : list bool) (pos : Z) (n : nat) : option (list bool) :=
  match n with
  | O => Some live
  | S k => let? live1 := lset live pos false in kill_outputs live1 (pos + 1) k
  end.
Definition is_const (a : aval) : bool := match a with AConst _ => true | _ => false end.
Fixpoint mark_inputs (live : list bool) (pos : Z) (snap : list aval) (n : nat) : option (list bool) :=
  match n with
  | O => Some live
  | S k =>
      let? live1 := match snap with
                    | a :: _ => if is_const a then Some live else lset live pos true
                    | [] => lset live pos true
                    end in
      mark_inputs live1 (pos + 1) (tl snap) k
  end.
(** [generic_transfer], dse:297-327. *)
Definition generic_transfer (live : list bool) (h : Z) (inp out : nat) (snap : list aval) (output : option aval)
  : option (list bool) :=
  let base := h - Z.of_nat inp in
  let? live1 := kill_outputs live base out in
  if (0 <? out)%nat && match output with Some a => is_const a | None => false end then Some live1
  else mark_inputs live1 base snap inp.
(** [transfer_liveness], dse:236-288. *)
Definition transfer_liveness (live : list bool) (op h : Z) (inp out : nat) (imm : dimm) (snap : list aval)
    (output : option aval) : option (list bool) :=
  if is_swap16 op then swap_live live (h - 1) (h - 1 - (op - 0x90 + 1))
  else if op =? OP_SWAPN then
    match imm with DSingle d => if below d h then swap_live live (h - 1) (h - 1 - d) else Some live | _ => Some live end
  else if is_dup16 op then dup_live live h (op - 0x80 + 1)
  else if op =? OP_DUPN then
    match imm with
    | DSingle d => if (1 <=? d) && ((h <? 0) || (d <=? h)) then dup_live live h d else Some live
    | _ => Some live
    end
  else if op =? OP_EXCHANGE then
    match imm with
    | DPair n m => if below m h then swap_live live (h - 1 - n) (h - 1 - m) else Some live
    | _ => Some live
    end
  else if op =? OP_POP then lset live (h - 1) false
  else generic_transfer live h inp out snap output.

(** [live[..h_after].fill(true)], dse:136. *)
Definition fill_prefix (live : list bool) (n : Z) : option (list bool) :=
  if (n <? 0) || (Z.of_nat (length live) <? n) then None
  else Some (repeat true (Z.to_nat n) ++ skipn (Z.to_nat n) live).

(** One instruction with what the pass reads about it: data, immediate byte, snapshots. *)
Record ditem := mkI { it_d : idata; it_imm : Z; it_in : list aval; it_out : option aval }.
Definition it_inp (t : ditem) : nat := Z.to_nat (fst (d_io (it_d t))).
Definition it_outp (t : ditem) : nat := Z.to_nat (snd (d_io (it_d t))).

(** One iteration of the backward loop, dse:85-138: [h] is [heights[idx]]. *)
Definition dse_step (t : ditem) (h : Z) (live : list bool) : option (list bool * idata) :=
  let d := it_d t in
  let f := d_flags d in
  if f_noop f || f_disabled f || f_unknown f then Some (live, d)
  else
    let op := d_op d in
    let imm := decode_imm op (it_imm t) in
    let? dead := if can_skip op && negb (is_branching d) && negb (is_diverging d)
                 then all_outputs_dead live op h (it_inp t) (it_outp t) imm else Some false in
    if dead then Some (live, set_noop d)
    else
      let? live1 := transfer_liveness live op h (it_inp t) (it_outp t) imm (it_in t) (it_out t) in
      if may_suspend d
      then let? live2 := fill_prefix live1 (h + (snd (d_io d) - fst (d_io d))) in Some (live2, d)
      else Some (live1, d).

(** The backward walk, dse:84-139: the tail of the block is processed first. *)
Fixpoint dse_walk (l : list ditem) (h : Z) (exit_live : list bool) : option (list bool * list idata) :=
  match l with
  | [] => Some (exit_live, [])
  | t :: tl =>
      let? (live, ds) := dse_walk tl (h + (snd (d_io (it_d t)) - fst (d_io (it_d t)))) exit_live in
      let? (live', d') := dse_step t h live in
      Some (live', d' :: ds)
  end.

(** [BitVec::resize]. *)
Definition resize (n : nat) (b : bool) (l : list bool) : list bool := firstn n l ++ repeat b (n - length l).

(** The body of the block loop, dse:43-139. *)
Definition block_summary (l : list ditem) : sstate := fold_left stack_process (map (fun t => d_io (it_d t)) l) s_init.
Definition last_diverges (l : list ditem) : bool :=
  match last (map Some l) None with Some t => is_diverging (it_d t) | None => false end.
Definition dse_block (inspect : bool) (l : list ditem) : option (list idata) :=
  let s := block_summary l in
  let '(inputs, growth) := stack_section s in
  let exit_height := inputs + s_diff s in
  let max_height := inputs + growth in
  let has_suspend := existsb (fun t => may_suspend (it_d t)) l in
  let term_diverges := negb inspect && negb has_suspend && last_diverges l in
  let live := resize (Z.to_nat max_height) false (repeat (negb term_diverges) (Z.to_nat exit_height)) in
  match live with
  | [] => Some (map it_d l)
  | _ => let? (_, ds) := dse_walk l inputs live in Some ds
  end.

(** The instructions of a block as the pass reads them; [imm] gives the immediate bytes. *)
Definition item_at (imm : nat -> Z) (p : bc) (i : nat) : option ditem :=
  match nth_error (b_insts p) i with
  | Some d => Some (mkI d (imm i) (sn_in (b_snaps p) i) (sn_out (b_snaps p) i))
  | None => None
  end.
Fixpoint items_at (imm : nat -> Z) (p : bc) (idx : list nat) : option (list ditem) :=
  match idx with
  | [] => Some []
  | i :: tl => let? t := item_at imm p i in let? ts := items_at imm p tl in Some (t :: ts)
  end.
(** Writing the flags of a block back. *)
Fixpoint write_at (start : nat) (ds : list idata) (l : list idata) : list idata :=
  match ds with
  | [] => l
  | d :: ds' => write_at (S start) ds' (upd_nth start (fun _ => d) l)
  end.
Definition dse_one (inspect : bool) (imm : nat -> Z) (p : bc) (b : blk) : option bc :=
  let? items := items_at imm p (blk_insts b) in
  let? ds := dse_block inspect items in
  Some (with_insts p (write_at (bk_start b) ds (b_insts p))).
(** [dead_store_elim], dse:35-146. *)
Fixpoint dse_blocks (inspect : bool) (imm : nat -> Z) (bs : list blk) (p : bc) : option bc :=
  match bs with
  | [] => Some p
  | b :: tl => let? p1 := dse_one inspect imm p b in dse_blocks inspect imm tl p1
  end.
Definition dead_store_elim (inspect : bool) (imm : nat -> Z) (p : bc) : option bc :=
  dse_blocks inspect imm (b_blocks p) p.
