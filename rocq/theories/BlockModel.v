(** Model of the control-flow and constant analyses: dead code, CFG construction, abstract
    interpretation, jump resolution.

    Sources: crates/revmc-codegen/src/bytecode/mod.rs (analyze, recompute_*, mark_dead_code) and
    bytecode/passes/block_analysis.rs. Cited lines are of block_analysis.rs unless stated otherwise.
    Abstract stacks are listed top first (the [Vec]s have the top last). Tracing and statistics are
    omitted. *)
From Verif Require Export InstModel SectionsModel ArithModel.
Open Scope Z_scope.

(** ** Immutable inputs of the analysis. *)
Record aenv := mkEnv {
  (* constant of an instruction: PUSH value, EIP-8024 immediate byte, pc of PC (mod.rs:265-303); the
     handles of C04 are replaced by the words they stand for *)
  a_const : nat -> Z;
  (* usize::try_from + is_valid_jump + pc_to_inst on a 256-bit value, 790-796, mod.rs:635-637,660-665 *)
  a_dest : Z -> option nat;
  (* the u32 handle of a constant, which orders constant sets; injective (C04) *)
  a_key : Z -> Z;
  a_codelen : Z;
  a_gas_limit : Z
}.

(** ** Abstract values, 73-90. A [ConstSetIdx] is replaced by the interned set itself. *)
Inductive aval := AConst (v : Z) | ASet (l : list Z) | ATop.
Definition as_const (a : aval) : option Z := match a with AConst v => Some v | _ => None end.

Fixpoint list_eqb (l1 l2 : list Z) : bool :=
  match l1, l2 with
  | [], [] => true
  | x :: l1', y :: l2' => (x =? y) && list_eqb l1' l2'
  | _, _ => false
  end.
Definition aval_eqb (a b : aval) : bool :=
  match a, b with
  | AConst x, AConst y => x =? y
  | ASet l, ASet l' => list_eqb l l'
  | ATop, ATop => true
  | _, _ => false
  end.

(** [abs_const_set], 108-114. *)
Definition abs_const_set (a : aval) : option (list Z) :=
  match a with ATop => None | AConst v => Some [v] | ASet l => Some l end.
(** [intern_set], 117-123; an empty set does not occur ([unreachable!]). *)
Definition intern_set (l : list Z) : aval :=
  match l with [] => ATop | [v] => AConst v | _ => ASet l end.
(** Sorted merge with dedup, 133-153, ordered by handle. *)
Fixpoint merge (key : Z -> Z) (a : list Z) : list Z -> list Z :=
  fix merge_b (b : list Z) : list Z :=
    match a, b with
    | [], _ => b
    | _, [] => a
    | x :: a', y :: b' =>
        match key x ?= key y with
        | Lt => x :: merge key a' b
        | Gt => y :: merge_b b'
        | Eq => x :: merge key a' b'
        end
    end.
(** [ConstSetInterner::join], 126-157. *)
Definition vjoin (env : aenv) (a b : aval) : aval :=
  match a, b with
  | ATop, _ | _, ATop => ATop
  | AConst x, AConst y =>
      if a_key env x =? a_key env y then AConst x else intern_set (merge (a_key env) [x] [y])
  | _, _ =>
      match abs_const_set a, abs_const_set b with
      | Some la, Some lb => intern_set (merge (a_key env) la lb)
      | _, _ => ATop
      end
  end.

(** ** Block states, 160-231. [None] is Bottom. *)
Definition MAX_ABS_STACK_DEPTH : nat := 64.
Definition bstate := option (list aval).

(** Resize to [n] slots keeping the top: drop or pad at the bottom, 201-215. *)
Definition resize_top (n : nat) (l : list aval) : list aval :=
  firstn n l ++ repeat ATop (n - length l).
Fixpoint join_slots (env : aenv) (a b : list aval) : list aval :=
  match a, b with
  | x :: a', y :: b' => vjoin env x y :: join_slots env a' b'
  | _, _ => []
  end.
Fixpoint slots_eqb (a b : list aval) : bool :=
  match a, b with
  | [], [] => true
  | x :: a', y :: b' => aval_eqb x y && slots_eqb a' b'
  | _, _ => false
  end.
(** [BlockState::join], 186-230: new state and whether it changed. *)
Definition sjoin (env : aenv) (s : bstate) (incoming : list aval) : bstate * bool :=
  match s with
  | None => (Some (firstn MAX_ABS_STACK_DEPTH incoming), true)
  | Some existing =>
      let join_len := Nat.min (Nat.max (length existing) (length incoming)) MAX_ABS_STACK_DEPTH in
      let ex := resize_top join_len existing in
      let joined := join_slots env ex (resize_top join_len incoming) in
      (Some joined, negb (length existing =? join_len)%nat || negb (slots_eqb ex joined))
  end.

(** ** Basic blocks and the state of the analysis. *)
Record blk := mkBlk { bk_start : nat; bk_end : nat; bk_succs : list nat }.
Definition terminator (b : blk) : nat := bk_end b - 1.
Definition blk_insts (b : blk) : list nat := seq (bk_start b) (bk_end b - bk_start b).

(** [Snapshots], 53-59: operands deepest first, as stored. *)
Record snaps := mkSn { sn_in : nat -> list aval; sn_out : nat -> option aval }.
Definition no_snaps : snaps := mkSn (fun _ => []) (fun _ => None).
Definition upd {A} (f : nat -> A) (k : nat) (v : A) : nat -> A := fun i => if (i =? k)%nat then v else f i.
Definition set_in (s : snaps) (i : nat) (l : list aval) : snaps := mkSn (upd (sn_in s) i l) (sn_out s).
Definition set_out (s : snaps) (i : nat) (o : option aval) : snaps := mkSn (sn_in s) (upd (sn_out s) i o).
(** [restore_from], 62-68. *)
Definition restore_from (s : snaps) (idx : list nat) (saved : snaps) : snaps :=
  fold_left (fun s i => set_out (set_in s i (sn_in saved i)) i (sn_out saved i)) idx s.

(** The mutable part of [Bytecode] (mod.rs:160-226) used here. [redirects] is a hash map: the list
    order stands for an arbitrary iteration order. *)
Record bc := mkBc {
  b_insts : list idata;
  b_multi : nat -> option (list nat);     (* multi_jump_targets *)
  b_redirects : list (nat * nat);
  b_dyn : bool;                           (* has_dynamic_jumps *)
  b_blocks : list blk;                    (* cfg.blocks *)
  b_snaps : snaps;
  b_used : Z                              (* compiler_gas_used *)
}.
Definition with_insts (p : bc) (l : list idata) : bc :=
  mkBc l (b_multi p) (b_redirects p) (b_dyn p) (b_blocks p) (b_snaps p) (b_used p).
Definition with_dyn (p : bc) (d : bool) : bc :=
  mkBc (b_insts p) (b_multi p) (b_redirects p) d (b_blocks p) (b_snaps p) (b_used p).
Definition with_multi (p : bc) (m : nat -> option (list nat)) : bc :=
  mkBc (b_insts p) m (b_redirects p) (b_dyn p) (b_blocks p) (b_snaps p) (b_used p).
Definition with_blocks (p : bc) (l : list blk) : bc :=
  mkBc (b_insts p) (b_multi p) (b_redirects p) (b_dyn p) l (b_snaps p) (b_used p).
Definition with_redirects (p : bc) (r : list (nat * nat)) : bc :=
  mkBc (b_insts p) (b_multi p) r (b_dyn p) (b_blocks p) (b_snaps p) (b_used p).
Definition with_snaps (p : bc) (s : snaps) (used : Z) : bc :=
  mkBc (b_insts p) (b_multi p) (b_redirects p) (b_dyn p) (b_blocks p) s used.

Fixpoint upd_nth {A} (k : nat) (f : A -> A) (l : list A) : list A :=
  match k, l with
  | _, [] => []
  | O, x :: l' => f x :: l'
  | S k', x :: l' => x :: upd_nth k' f l'
  end.

(** ** Redirects. *)
Fixpoint lookup (k : nat) (r : list (nat * nat)) : option nat :=
  match r with
  | [] => None
  | (a, b) :: r' => if (a =? k)%nat then Some b else lookup k r'
  end.
(** [while let Some(&next) = self.redirects.get(&target)], mod.rs:499-501 and 565-567: one unit of
    fuel per hop, [None] = the loop does not end. *)
Fixpoint chase (fuel : nat) (r : list (nat * nat)) (t : nat) : option nat :=
  match lookup t r with
  | None => Some t
  | Some n => match fuel with O => None | S f => chase f r n end
  end.
Definition root (r : list (nat * nat)) (t : nat) : option nat := chase (length r) r t.

(** ** Reachability of jump destinations, mod.rs:461-508. *)

(** [recompute_has_dynamic_jumps], mod.rs:463-471. *)
Definition unresolved (d : idata) : bool := is_jump d && negb (f_static (d_flags d)) && negb (is_dead d).
Definition recompute_dyn (p : bc) : bc := with_dyn p (existsb unresolved (b_insts p)).

(** Targets collected by [recompute_reachable_jumpdests], mod.rs:482-497. *)
Fixpoint jump_targets_from (multi : nat -> option (list nat)) (i : nat) (l : list idata) : list nat :=
  match l with
  | [] => []
  | d :: l' =>
      (if negb (is_static_jump d) || f_invalid (d_flags d) || is_dead d then []
       else if f_multi (d_flags d) then match multi i with Some ts => ts | None => [] end
       else [d_target d]) ++ jump_targets_from multi (S i) l'
  end.
Definition mark_reachable (d : idata) : idata := if is_jumpdest d then set_reach d true else d.
Fixpoint set_reachable (r : list (nat * nat)) (ts : list nat) (l : list idata) : option (list idata) :=
  match ts with
  | [] => Some l
  | t :: ts' =>
      match root r t with
      | None => None
      | Some t' => set_reachable r ts' (upd_nth t' mark_reachable l)
      end
  end.
(** [recompute_reachable_jumpdests], mod.rs:474-508. *)
Definition recompute_reachable (p : bc) : option bc :=
  let cleared := map (fun d => if is_jumpdest d then set_reach d false else d) (b_insts p) in
  match set_reachable (b_redirects p) (jump_targets_from (b_multi p) 0 (b_insts p)) cleared with
  | Some l => Some (with_insts p l)
  | None => None
  end.

(** ** Dead code, mod.rs:519-571. *)

(** [static_target], mod.rs:537-540. *)
Definition static_target_after (i : nat) (d : idata) : option nat :=
  if is_static_jump d && (i <? d_target d)%nat then Some (d_target d) else None.
Definition opt_eqb (a : option nat) (b : nat) : bool :=
  match a with Some x => (x =? b)%nat | None => false end.
(** [mark_dead_code_once], mod.rs:531-571. [mode]: [None] in the outer loop, [Some t] in the inner
    loop with static target [t]. Returns the instructions and [marked_jump_dead]. *)
Fixpoint mark_once (dyn : bool) (mode : option (option nat)) (i : nat) (l : list idata) : list idata * bool :=
  match l with
  | [] => ([], false)
  | d :: l' =>
      match mode with
      | None =>
          let mode' :=
            if can_fall_through d then None
            else let t := static_target_after i d in
                 if opt_eqb t (S i) then None else Some t in
          let '(r, b) := mark_once dyn mode' (S i) l' in (d :: r, b)
      | Some t =>
          if opt_eqb t i || is_reachable_jumpdest dyn d
          then let '(r, b) := mark_once dyn None (S i) l' in (d :: r, b)
          else let '(r, b) := mark_once dyn mode (S i) l' in
               (set_dead d :: r, (negb (is_dead d) && is_jump d) || b)
      end
  end.
(** [mark_dead_code], mod.rs:520-529; one unit of fuel per repetition. *)
Fixpoint mark_dead_code (fuel : nat) (p : bc) : option bc :=
  let '(l, marked) := mark_once (b_dyn p) None 0 (b_insts p) in
  let p1 := with_insts p l in
  if marked then
    match fuel with
    | O => None
    | S f => match recompute_reachable (recompute_dyn p1) with
             | Some p2 => mark_dead_code f p2
             | None => None
             end
    end
  else Some p1.

(** ** CFG, 548-693. *)

(** [compress_redirects], 557-573: every key, in iteration order, is pointed at the end of its chain. *)
Fixpoint insert_key (k v : nat) (r : list (nat * nat)) : list (nat * nat) :=
  match r with
  | [] => [(k, v)]
  | (a, b) :: r' => if (a =? k)%nat then (a, v) :: r' else (a, b) :: insert_key k v r'
  end.
Fixpoint compress (keys : list nat) (r : list (nat * nat)) : option (list (nat * nat)) :=
  match keys with
  | [] => Some r
  | k :: keys' =>
      match lookup k r with
      | None => None (* redirects[&inst] panics; keys are never removed *)
      | Some t => match root r t with
                  | None => None
                  | Some t' => compress keys' (if (t' =? t)%nat then r else insert_key k t' r)
                  end
      end
  end.
Definition compress_redirects (p : bc) : option bc :=
  match compress (map fst (b_redirects p)) (b_redirects p) with
  | Some r => Some (with_redirects p r)
  | None => None
  end.

(** Leaders, 598-619. *)
Definition leader_before (l : list idata) (i : nat) : bool :=
  match i with
  | O => true
  | S k => match nth_error l k with
           | Some d => negb (is_dead d) && (is_branching d || is_diverging d)
           | None => false
           end
  end.
Definition is_leader (dyn : bool) (l : list idata) (i : nat) : bool :=
  leader_before l i ||
  match nth_error l i with Some d => is_reachable_jumpdest dyn d | None => false end.

(** Block building loop, 624-653: [cur] = (current_start, current_end). *)
Fixpoint build (dyn : bool) (all : list idata) (i : nat) (l : list idata) (cur : option (nat * nat)) (pending : bool)
  : list (nat * nat) :=
  match l with
  | [] => match cur with Some r => [r] | None => [] end
  | d :: l' =>
      if is_dead d then build dyn all (S i) l' cur (pending || is_leader dyn all i)
      else match cur with
           | Some (s, e) =>
               if is_leader dyn all i || pending
               then (s, e) :: build dyn all (S i) l' (Some (i, S i)) false
               else build dyn all (S i) l' (Some (s, S i)) false
           | None => build dyn all (S i) l' (Some (i, S i)) false
           end
  end.
Definition ranges (dyn : bool) (l : list idata) : list (nat * nat) := build dyn l 0 l None false.

(** [inst_to_block]: the block whose range contains the instruction (ranges are disjoint). *)
Definition in_range (i : nat) (r : nat * nat) : bool := (fst r <=? i)%nat && (i <? snd r)%nat.
Fixpoint find_range (rs : list (nat * nat)) (b : nat) (i : nat) : option nat :=
  match rs with
  | [] => None
  | r :: rs' => if in_range i r then Some b else find_range rs' (S b) i
  end.
Definition inst_to_block (p : bc) (i : nat) : option nat :=
  find_range (map (fun b => (bk_start b, bk_end b)) (b_blocks p)) 0 i.

(** [resolve], 659-662: one hop is enough after [compress_redirects]. *)
Definition resolve_block (rs : list (nat * nat)) (r : list (nat * nat)) (t : nat) : option nat :=
  find_range rs 0 (match lookup t r with Some t' => t' | None => t end).
Definition add_succ (o : option nat) (succs : list nat) : list nat :=
  match o with
  | Some b => if existsb (Nat.eqb b) succs then succs else succs ++ [b]
  | None => succs
  end.
(** Edges of one block, 655-690. *)
Definition block_succs (p : bc) (rs : list (nat * nat)) (r : nat * nat) : list nat :=
  let term := (snd r - 1)%nat in
  match nth_error (b_insts p) term with
  | None => []
  | Some d =>
      let s0 := if can_fall_through d then
                  match resolve_block rs (b_redirects p) (S term) with Some b => [b] | None => [] end
                else [] in
      if f_multi (d_flags d) && match b_multi p term with Some _ => true | None => false end then
        match b_multi p term with
        | Some ts => fold_left (fun s t => add_succ (resolve_block rs (b_redirects p) t) s) ts s0
        | None => s0
        end
      else if is_static_jump d && negb (f_invalid (d_flags d)) then
        add_succ (resolve_block rs (b_redirects p) (d_target d)) s0
      else s0
  end.
(** [rebuild_cfg], 577-693. Predecessors are the converse of [bk_succs]; see [preds]. *)
Definition rebuild_cfg (p : bc) : bc :=
  let rs := ranges (b_dyn p) (b_insts p) in
  with_blocks p (map (fun r => mkBlk (fst r) (snd r) (block_succs p rs r)) rs).
(** [BlockData::preds]: pushed in block order, once per edge. *)
Definition preds (p : bc) (b : nat) : list nat :=
  filter (fun k => match nth_error (b_blocks p) k with
                   | Some bl => existsb (Nat.eqb b) (bk_succs bl) | None => false end)
         (seq 0 (length (b_blocks p))).

(** [refresh_cfg], 548-554. *)
Definition refresh_cfg (p : bc) : option bc :=
  match recompute_reachable (recompute_dyn p) with
  | None => None
  | Some p1 =>
      match mark_dead_code (length (b_insts p1)) p1 with
      | None => None
      | Some p2 => match compress_redirects p2 with
                   | None => None
                   | Some p3 => Some (rebuild_cfg p3)
                   end
      end
  end.

(** ** Abstract interpretation of instructions, 1060-1222. *)

Definition avals_const (l : list aval) : list (option Z) := map as_const l.
(** Constant folding under the gas budget, 1167-1197. *)
Definition fold_inst (env : aenv) (i : nat) (d : idata) (inputs : list aval) (used : Z) : option aval * Z :=
  if (0 <? snd (d_io d)) && (used <? a_gas_limit env) then
    match const_fold_gas (d_op d) (avals_const inputs) with
    | Some cost =>
        if used + cost <=? a_gas_limit env then
          match try_const_fold (d_op d) (a_const env i) (a_codelen env) (avals_const inputs) with
          | Some v => (Some (AConst v), used + cost)
          | None => (None, used)
          end
        else (None, used)
    | None => (None, used)
    end
  else (None, used).

Fixpoint aset_nth (k : nat) (v : aval) (l : list aval) : list aval :=
  match k, l with
  | _, [] => []
  | O, _ :: l' => v :: l'
  | S k', x :: l' => x :: aset_nth k' v l'
  end.
(** [stack.swap] of two existing slots, counted from the top. *)
Definition aswap (a b : nat) (l : list aval) : list aval :=
  match nth_error l a, nth_error l b with
  | Some x, Some y => aset_nth a y (aset_nth b x l)
  | _, _ => l
  end.

(** The [match] of one instruction, 1084-1205: new stack ([None] = [return false]) and budget used. *)
Definition interp_inst (env : aenv) (i : nat) (d : idata) (stk : list aval) (used : Z) : option (list aval) * Z :=
  let op := d_op d in
  let inp := Z.to_nat (fst (d_io d)) in
  let out := Z.to_nat (snd (d_io d)) in
  if (OP_PUSH0 <=? op) && (op <=? OP_PUSH32) then (Some (AConst (a_const env i) :: stk), used)
  else if op =? OP_POP then (match stk with _ :: s => Some s | [] => None end, used)
  else if (0x80 <=? op) && (op <=? 0x8f) then
    (match nth_error stk (Z.to_nat (op - 0x80)) with Some v => Some (v :: stk) | None => None end, used)
  else if (0x90 <=? op) && (op <=? 0x9f) then
    let depth := Z.to_nat (op - 0x90 + 1) in
    (if (length stk <? depth + 1)%nat then None else Some (aswap 0 depth stk), used)
  else if op =? OP_DUPN then
    (match decode_single (a_const env i) with
     | Some n => let n := Z.to_nat n in
                 if (length stk <? n)%nat then Some (ATop :: stk)
                 else match nth_error stk (n - 1) with Some v => Some (v :: stk) | None => None end
     | None => None
     end, used)
  else if op =? OP_SWAPN then
    (match decode_single (a_const env i) with
     | Some n => let n := Z.to_nat n in
                 if (length stk <? n + 1)%nat then Some (aset_nth 0 ATop stk) else Some (aswap 0 n stk)
     | None => None
     end, used)
  else if op =? OP_EXCHANGE then
    (match decode_pair (a_const env i) with
     | Some (n, m) => let n := Z.to_nat n in let m := Z.to_nat m in
                      if (length stk <? m + 1)%nat
                      then Some (if (n <? length stk)%nat then aset_nth n ATop stk else stk)
                      else Some (aswap n m stk)
     | None => None
     end, used)
  else if (length stk <? inp)%nat then (None, used)
  else
    let '(folded, used') := fold_inst env i d (rev (firstn inp stk)) used in
    let rest := skipn inp stk in
    (Some (match folded with Some v => v :: rest | None => repeat ATop out ++ rest end), used').

(** Swaps record no output snapshot, 1209-1212. *)
Definition is_swap (op : Z) : bool :=
  ((0x90 <=? op) && (op <=? 0x9f)) || (op =? OP_SWAPN) || (op =? OP_EXCHANGE).

(** [interpret_block], 1060-1222: success, final stack, snapshots, budget used. *)
Fixpoint interp_block (env : aenv) (insts : list idata) (idx : list nat) (stk : list aval) (sn : snaps) (used : Z)
  : bool * list aval * snaps * Z :=
  match idx with
  | [] => (true, stk, sn, used)
  | i :: idx' =>
      match nth_error insts i with
      | None => (false, stk, sn, used) (* index panic; blocks are in range *)
      | Some d =>
          if is_dead d then interp_block env insts idx' stk sn used
          else
            let inp := Z.to_nat (fst (d_io d)) in
            let sn1 := if (0 <? inp)%nat then set_in sn i (rev (firstn inp stk)) else sn in
            match interp_inst env i d stk used with
            | (None, used') => (false, stk, sn1, used')
            | (Some stk', used') =>
                let sn2 := if (0 <? snd (d_io d)) && negb (is_swap (d_op d))
                           then set_out sn1 i (hd_error stk') else sn1 in
                interp_block env insts idx' stk' sn2 used'
            end
      end
  end.

(** ** Jump resolution, 290-360 and 759-870. *)
Inductive jtarget := JBottom | JResolved (ts : list nat) | JInvalid | JTop.
Inductive jcond := CUnknown | CAlwaysTrue | CAlwaysFalse.
Record jres := mkJ { j_target : jtarget; j_cond : jcond }.
Definition cond_known (c : jcond) : bool := match c with CUnknown => false | _ => true end.
Definition is_top (r : jres) : bool := match j_target r with JTop => true | _ => false end.
Definition is_resolved (r : jres) : bool :=
  match j_target r with JResolved _ | JInvalid => true | _ => false end.

(** [resolve_jump_condition], 828-855. *)
Definition resolve_jump_condition (a : aval) : jcond :=
  match abs_const_set a with
  | None => CUnknown
  | Some l =>
      match existsb (Z.eqb 0) l, existsb (fun v => negb (v =? 0)) l with
      | true, false => CAlwaysFalse
      | false, true => CAlwaysTrue
      | _, _ => CUnknown
      end
  end.
(** Targets of a constant set: [None] as soon as one is not valid, 799-814. *)
Fixpoint set_targets (env : aenv) (l : list Z) : option (list nat) :=
  match l with
  | [] => Some []
  | v :: l' => match a_dest env v with
               | Some t => option_map (cons t) (set_targets env l')
               | None => None
               end
  end.
(** [resolve_jump_operand], 784-826. *)
Definition resolve_jump_operand (env : aenv) (a : aval) : jtarget :=
  match a with
  | AConst v => match a_dest env v with Some t => JResolved [t] | None => JInvalid end
  | ASet l => match set_targets env l with
              | Some [] => JInvalid
              | Some ts => JResolved ts
              | None => JTop
              end
  | ATop => JTop
  end.
(** [resolve_jump], 759-781. *)
Definition resolve_jump (env : aenv) (insts : list idata) (sn : snaps) (i : nat) : jres :=
  let snap := sn_in sn i in
  let cond := match nth_error insts i with
              | Some d => if d_op d =? OP_JUMPI
                          then match snap with a :: _ => resolve_jump_condition a | [] => CUnknown end
                          else CUnknown
              | None => CUnknown
              end in
  match cond with
  | CAlwaysFalse => mkJ (JResolved [S i]) CAlwaysFalse
  | _ => match last (map Some snap) None with
         | Some a => mkJ (resolve_jump_operand env a) cond
         | None => mkJ JBottom CUnknown
         end
  end.
(** [local_jumpi_condition], 857-870. *)
Definition local_jumpi_condition (insts : list idata) (local : snaps) (i : nat) : jcond :=
  match nth_error insts i with
  | Some d =>
      if d_op d =? OP_JUMPI then
        match sn_in local i with
        | AConst v :: _ => if v =? 0 then CAlwaysFalse else CAlwaysTrue
        | _ => CUnknown
        end
      else CUnknown
  | None => CUnknown
  end.

(** ** Fixpoint, 980-1053. *)
Record fx := mkFx {
  fx_states : nat -> bstate;
  fx_queue : list nat;
  fx_disc : nat -> list nat;   (* discovered *)
  fx_snaps : snaps;
  fx_used : Z
}.
(** [Worklist::push], 245-251: [in_queue] holds exactly the queued blocks. *)
Definition wpush (q : list nat) (b : nat) : list nat := if existsb (Nat.eqb b) q then q else q ++ [b].

(** [discover_jump_edges], 873-900 ([disc_preds] is only written). *)
Definition discover (env : aenv) (p : bc) (a : aval) (disc : list nat) : list nat :=
  match abs_const_set a with
  | None => disc
  | Some l => fold_left (fun acc v => match a_dest env v with
                                      | Some t => add_succ (inst_to_block p t) acc
                                      | None => acc
                                      end) l disc
  end.
(** Joining the out state into the successors, 1041-1045. *)
Fixpoint propagate (env : aenv) (succs : list nat) (stk : list aval) (states : nat -> bstate) (q : list nat)
  : (nat -> bstate) * list nat :=
  match succs with
  | [] => (states, q)
  | s :: succs' =>
      let '(st', changed) := sjoin env (states s) stk in
      propagate env succs' stk (upd states s st') (if changed then wpush q s else q)
  end.
(** The body of the loop for block [bid] (already popped), 1010-1046. *)
Definition fx_step (env : aenv) (p : bc) (bid : nat) (s : fx) : fx :=
  match fx_states s bid, nth_error (b_blocks p) bid with
  | Some stk0, Some b =>
      let '(ok, stk, sn, used) := interp_block env (b_insts p) (blk_insts b) stk0 (fx_snaps s) (fx_used s) in
      if ok then
        let term := terminator b in
        let disc :=
          match nth_error (b_insts p) term with
          | Some d => if is_jump d && negb (f_static (d_flags d))
                      then match last (map Some (sn_in sn term)) None with
                           | Some a => upd (fx_disc s) bid (discover env p a (fx_disc s bid))
                           | None => fx_disc s
                           end
                      else fx_disc s
          | None => fx_disc s
          end in
        let '(states, q) := propagate env (bk_succs b ++ disc bid) stk (fx_states s) (fx_queue s) in
        mkFx states q disc sn used
      else mkFx (fx_states s) (fx_queue s) (fx_disc s) sn used
  | _, _ => s
  end.
(** The loop; [fuel] = iterations left; the boolean is [converged]. *)
Fixpoint fx_loop (env : aenv) (p : bc) (fuel : nat) (s : fx) : fx * bool :=
  match fx_queue s with
  | [] => (s, true)
  | bid :: q =>
      match fuel with
      | O => (s, false)
      | S f => fx_loop env p f (fx_step env p bid (mkFx (fx_states s) q (fx_disc s) (fx_snaps s) (fx_used s)))
      end
  end.
Definition run_fixpoint (env : aenv) (p : bc) : fx * bool :=
  fx_loop env p (length (b_blocks p) * 8)
    (mkFx (upd (fun _ => None) 0%nat (Some [])) [0%nat] (fun _ => []) (b_snaps p) (b_used p)).

(** ** Suspects, 913-975. *)
Definition seed_suspect (p : bc) (states : nat -> bstate) (b : nat) : bool :=
  match states b, nth_error (b_blocks p) b with
  | Some _, Some bl => match nth_error (b_insts p) (bk_start bl) with Some d => is_jumpdest d | None => false end
  | _, _ => false
  end.
(** Forward propagation of the suspect set, 938-951: a worklist of blocks already in the set. One unit
    of fuel per popped block; each block enters the worklist at most once. *)
Definition suspect_succ (ws : list nat * (nat -> bool)) (c : nat) : list nat * (nat -> bool) :=
  let '(w, s) := ws in if s c then (w, s) else (w ++ [c], upd s c true).
Fixpoint spread (p : bc) (disc : nat -> list nat) (fuel : nat) (work : list nat) (sus : nat -> bool) : option (nat -> bool) :=
  match work with
  | [] => Some sus
  | b :: work' =>
      match fuel with
      | O => None
      | S f =>
          let succs := match nth_error (b_blocks p) b with Some bl => bk_succs bl | None => [] end ++ disc b in
          let '(work1, sus1) := fold_left suspect_succ succs (work', sus) in
          spread p disc f work1 sus1
      end
  end.
Definition suspects (p : bc) (states : nat -> bstate) (disc : nat -> list nat) : option (nat -> bool) :=
  let n := length (b_blocks p) in
  spread p disc n (filter (seed_suspect p states) (seq 0 n)) (seed_suspect p states).

(** New resolution of a jump in a suspect block, 953-966. *)
Definition weaken (insts : list idata) (local : snaps) (i : nat) (r : jres) : jres :=
  let c := local_jumpi_condition insts local i in
  match c with
  | CAlwaysFalse => mkJ (JResolved [S i]) c
  | _ => if is_resolved r then mkJ JTop c else mkJ (j_target r) c
  end.
(** [invalidate_suspect_jumps], 913-975. *)
Definition invalidate (p : bc) (states : nat -> bstate) (disc : nat -> list nat) (local : snaps)
    (rs : list (nat * jres)) (sn : snaps) : option (list (nat * jres) * snaps) :=
  match suspects p states disc with
  | None => None
  | Some sus =>
      let sus_inst i := match inst_to_block p i with Some b => sus b | None => false end in
      Some (map (fun '(i, r) => (i, if sus_inst i then weaken (b_insts p) local i r else r)) rs,
            fold_left (fun s b => if sus b then match nth_error (b_blocks p) b with
                                                | Some bl => restore_from s (blk_insts bl) local
                                                | None => s end else s)
                      (seq 0 (length (b_blocks p))) sn)
  end.

(** ** Committing, 466-543. *)
Definition commit_flags (d : idata) (static invalid multi constcond : bool) : idata :=
  let f := d_flags d in
  set_flags d (mkF static invalid multi constcond (f_disabled f) (f_unknown f) (f_noop f) (f_head f) (f_dead f)).
(** Effect of one resolution on its own instruction and the multi-target map. The reachable bits set
    in between (503-512) are recomputed before they are read. *)
Definition commit_one (has_top : bool) (i : nat) (r : jres) (d : idata) (m : option (list nat))
  : idata * option (list nat) :=
  let f := d_flags d in
  if f_static f && negb (cond_known (j_cond r)) then (d, m)
  else
    let cc := f_constcond f || cond_known (j_cond r) in
    match j_target r with
    | JResolved [t] => (set_target (commit_flags d true false false cc) t, None)
    | JResolved ts => (commit_flags d true false true cc, Some ts)
    | JInvalid => (commit_flags d true true false cc, None)
    | JBottom => if has_top then (commit_flags d (f_static f) (f_invalid f) (f_multi f) cc, m)
                 else (commit_flags d true true false cc, None)
    | JTop => (commit_flags d (f_static f) (f_invalid f) (f_multi f) cc, m)
    end.
Definition commit_step (has_top : bool) (p : bc) (ir : nat * jres) : bc :=
  let '(i, r) := ir in
  match nth_error (b_insts p) i with
  | None => p
  | Some d =>
      let '(d', m') := commit_one has_top i r d (b_multi p i) in
      with_multi (with_insts p (upd_nth i (fun _ => d') (b_insts p))) (upd (b_multi p) i m')
  end.
(** [commit_resolved_jumps]. *)
Definition commit_resolved (rs : list (nat * jres)) (p : bc) : option bc :=
  recompute_reachable (fold_left (commit_step (existsb (fun ir => is_top (snd ir)) rs)) rs p).

(** ** Block-local analysis, 388-442. *)
Definition block_inputs (insts : list idata) (b : blk) : nat :=
  let ios := map (fun i => match nth_error insts i with Some d => d_io d | None => (0, 0) end) (blk_insts b) in
  Z.to_nat (fst (from_stack_io ios)).
Definition local_block (env : aenv) (p : bc) (acc : list (nat * jres) * (snaps * Z)) (b : blk)
  : list (nat * jres) * (snaps * Z) :=
  let '(rs, (sn, used)) := acc in
  let '(ok, _, sn', used') :=
    interp_block env (b_insts p) (blk_insts b) (repeat ATop (block_inputs (b_insts p) b)) sn used in
  let term := terminator b in
  let unresolved_jump := match nth_error (b_insts p) term with
                         | Some d => is_jump d && negb (f_static (d_flags d)) | None => false end in
  if ok && unresolved_jump then
    let r := resolve_jump env (b_insts p) sn' term in
    match j_target r with
    | JResolved [_] => (rs ++ [(term, r)], (sn', used'))
    | _ => (rs, (sn', used'))
    end
  else (rs, (sn', used')).
Definition block_analysis_local (env : aenv) (p : bc) : option bc :=
  let '(rs, (sn, used)) := fold_left (local_block env p) (b_blocks p) ([], (b_snaps p, b_used p)) in
  option_map recompute_dyn (commit_resolved rs (with_snaps p sn used)).

(** ** Global analysis, 449-461 and 699-757. *)
Definition wants_resolution (d : idata) : bool :=
  is_jump d && (negb (f_static (d_flags d)) || ((d_op d =? OP_JUMPI) && negb (has_const_jumpi_condition d))).
Definition jump_insts (insts : list idata) : list nat :=
  filter (fun i => match nth_error insts i with Some d => wants_resolution d | None => false end)
         (seq 0 (length insts)).
(** [run_abstract_interp]: resolutions, snapshots, budget. *)
Definition run_abstract_interp (env : aenv) (p : bc) (local : snaps) : option (list (nat * jres) * snaps * Z) :=
  let '(s, converged) := run_fixpoint env p in
  let sn := if converged then fx_snaps s
            else restore_from (fx_snaps s) (seq 0 (length (b_insts p))) local in
  let rs := map (fun i => (i, resolve_jump env (b_insts p) sn i)) (jump_insts (b_insts p)) in
  if existsb (fun ir => is_top (snd ir)) rs || negb converged then
    match invalidate p (fx_states s) (fx_disc s) local rs sn with
    | Some (rs', sn') => Some (rs', sn', fx_used s)
    | None => None
    end
  else Some (rs, sn, fx_used s).
Definition block_analysis (env : aenv) (p : bc) (local : snaps) : option bc :=
  match run_abstract_interp env p local with
  | None => None
  | Some (rs, sn, used) =>
      let p1 := with_snaps p sn used in
      let p2 := if existsb (fun ir => is_resolved (snd ir)) rs || existsb (fun ir => cond_known (j_cond (snd ir))) rs
                then commit_resolved rs p1 else Some p1 in
      option_map recompute_dyn p2
  end.

(** ** [Bytecode::analyze] up to and including the global analysis, mod.rs:421-433. *)
Definition initial (insts : list idata) : bc :=
  mkBc insts (fun _ => None) [] false [] no_snaps 0.
Definition analyze_local (env : aenv) (p : bc) : option bc :=
  match refresh_cfg p with
  | None => None
  | Some p1 => match block_analysis_local env p1 with
               | None => None
               | Some p2 => refresh_cfg p2
               end
  end.
Definition analyze_global (env : aenv) (p : bc) : option bc :=
  match block_analysis env p (b_snaps p) with
  | None => None
  | Some p1 => refresh_cfg p1
  end.
Definition analyze (env : aenv) (insts : list idata) : option bc :=
  match analyze_local env (initial insts) with
  | None => None
  | Some p => analyze_global env p
  end.

(** [const_operand] and [const_output], mod.rs:679-692. *)
Definition const_operand (p : bc) (i depth : nat) : option Z :=
  match nth_error (rev (sn_in (b_snaps p) i)) depth with Some a => as_const a | None => None end.
Definition const_output (p : bc) (i : nat) : option Z :=
  match sn_out (b_snaps p) i with Some a => as_const a | None => None end.
