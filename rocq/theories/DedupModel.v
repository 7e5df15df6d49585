(** Model of block deduplication.

    Source: crates/revmc-codegen/src/bytecode/passes/dedup.rs (cited lines are of this file). *)
From Verif Require Export BlockModel.
Open Scope Z_scope.

(** [data.to_ne_bytes()] on a little-endian target. *)
Definition le_bytes4 (v : Z) : list Z := [v mod 256; (v / 256) mod 256; (v / 65536) mod 256; (v / 16777216) mod 256].
(** [while let [0, rest @ ..] = imm], 208-210. *)
Fixpoint strip0 (l : list Z) : list Z :=
  match l with x :: l' => if x =? 0 then strip0 l' else l | [] => [] end.
(** [block_fingerprint], 200-214: bytes of one instruction, and of the block. [imm_len] is mod.rs:1001. *)
Definition inst_print (d : idata) : list Z :=
  d_op d :: if (0 <? min_imm_len (d_op d))%nat then strip0 (le_bytes4 (d_data d)) else [].
Definition block_fingerprint (insts : list idata) (b : blk) : list Z :=
  flat_map (fun i => match nth_error insts i with Some d => inst_print d | None => [] end) (blk_insts b).

(** [DedupKey], 28-37. *)
Record dkey := mkKey { k_print : list Z; k_succs : list nat; k_multi : bool }.
Fixpoint nats_eqb (a b : list nat) : bool :=
  match a, b with
  | [], [] => true
  | x :: a', y :: b' => (x =? y)%nat && nats_eqb a' b'
  | _, _ => false
  end.
Definition key_eqb (a b : dkey) : bool :=
  list_eqb (k_print a) (k_print b) && nats_eqb (k_succs a) (k_succs b) && Bool.eqb (k_multi a) (k_multi b).

(** Eligibility and key of a block, 77-115: [None] = [continue]. *)
Definition block_key (p : bc) (b : blk) : option dkey :=
  match nth_error (b_insts p) (terminator b), nth_error (b_insts p) (bk_start b) with
  | Some term, Some first =>
      if can_fall_through term then None
      else if b_dyn p && is_reachable_jumpdest true first then None
      else if existsb (fun i => match nth_error (b_insts p) i with Some d => d_op d =? OP_PC | None => false end) (blk_insts b)
      then None
      else if is_jump term && negb (f_static (d_flags term)) then None
      else match block_fingerprint (b_insts p) b with
           | [] => None
           | fp => Some (mkKey fp (bk_succs b) (f_multi (d_flags term)))
           end
  | _, _ => None (* index panic; blocks are in range and not empty *)
  end.

(** [key_to_blocks.entry(key).or_default().push(bid)], 116-121: an association list. *)
Fixpoint push_group (k : dkey) (b : nat) (m : list (dkey * list nat)) : list (dkey * list nat) :=
  match m with
  | [] => [(k, [b])]
  | (k', g) :: m' => if key_eqb k' k then (k', g ++ [b]) :: m' else (k', g) :: push_group k b m'
  end.
Fixpoint group_from (p : bc) (b : nat) (l : list blk) (m : list (dkey * list nat)) : list (dkey * list nat) :=
  match l with
  | [] => m
  | bl :: l' => group_from p (S b) l' (match block_key p bl with Some k => push_group k b m | None => m end)
  end.
Definition groups (p : bc) : list (list nat) := map snd (group_from p 0 (b_blocks p) []).

(** Merging block [d] into the canonical block [c], 138-183. [None]: the [unwrap] of 164 panics. *)
Definition kill (l : list idata) (idx : list nat) : list idata := fold_left (fun l i => upd_nth i set_dead l) idx l.
Definition has (f : idata -> bool) (l : list idata) (i : nat) : bool :=
  match nth_error l i with Some d => f d | None => false end.
(** 173-177. *)
Definition jumps_to (t : nat) (d : idata) : bool :=
  is_static_jump d && negb (f_invalid (d_flags d)) && negb (f_multi (d_flags d)) && (d_target d =? t)%nat.
Definition add_targets (old new : list nat) : list nat :=
  fold_left (fun acc t => if existsb (Nat.eqb t) acc then acc else acc ++ [t]) new old.
Definition merge_multi (m : nat -> option (list nat)) (ct dt : nat) (multi : bool) : option (nat -> option (list nat)) :=
  if multi then
    match m dt with
    | Some ts =>
        let m1 := upd m dt None in
        match m1 ct with Some cts => Some (upd m1 ct (Some (add_targets cts ts))) | None => None end
    | None => Some m
    end
  else Some m.
(** Predecessors, 170-190: [ps] are the terminators of the predecessor blocks. *)
Definition retarget (ps : list nat) (from to : nat) (l : list idata) : list idata :=
  fold_left (fun l i => if has (jumps_to from) l i then upd_nth i (fun d => set_target d to) l else l) ps l.
Definition pred_terms (p : bc) (b : nat) : list nat :=
  flat_map (fun k => match nth_error (b_blocks p) k with Some bl => [terminator bl] | None => [] end) (preds p b).
Definition merge_dup (c : blk) (p : bc) (dup : nat) : option bc :=
  match nth_error (b_blocks p) dup with
  | None => None
  | Some d =>
      let l1 := kill (b_insts p) (blk_insts d) in
      let l2 := if has is_jumpdest l1 (bk_start d) && has d_reach l1 (bk_start d) && has is_jumpdest l1 (bk_start c)
                then upd_nth (bk_start c) (fun x => set_reach x true) l1 else l1 in
      match merge_multi (b_multi p) (terminator c) (terminator d) (has (fun x => f_multi (d_flags x)) l2 (terminator d)) with
      | None => None
      | Some m =>
          let l3 := retarget (pred_terms p dup) (bk_start d) (bk_start c) l2 in
          Some (mkBc l3 m (insert_key (bk_start d) (bk_start c) (b_redirects p)) (b_dyn p) (b_blocks p) (b_snaps p) (b_used p))
      end
  end.
Fixpoint merge_dups (c : blk) (p : bc) (ds : list nat) : option bc :=
  match ds with
  | [] => Some p
  | d :: ds' => match merge_dup c p d with Some p' => merge_dups c p' ds' | None => None end
  end.
(** One group, 124-186: the first block is the canonical one. *)
Definition merge_group (local : snaps) (p : bc) (g : list nat) : option bc :=
  match g with
  | canonical :: ((_ :: _) as dups) =>
      match nth_error (b_blocks p) canonical with
      | Some c => merge_dups c (with_snaps p (restore_from (b_snaps p) (blk_insts c) local) (b_used p)) dups
      | None => None
      end
  | _ => Some p
  end.
Fixpoint merge_groups (local : snaps) (p : bc) (gs : list (list nat)) : option bc :=
  match gs with
  | [] => Some p
  | g :: gs' => match merge_group local p g with Some p' => merge_groups local p' gs' | None => None end
  end.
Definition deduped (gs : list (list nat)) : nat := fold_right (fun g n => (length g - 1 + n)%nat) 0%nat gs.

(** [dedup_blocks_once], 71-190. Groups are visited in the iteration order of a hash map: [ord]
    stands for an arbitrary rearrangement. *)
Definition dedup_once (ord : list (list nat) -> list (list nat)) (local : snaps) (p : bc) : option (bc * nat) :=
  let gs := ord (groups p) in
  match merge_groups local p gs with Some p' => Some (p', deduped gs) | None => None end.
(** [dedup_blocks], 54-68; one unit of fuel per repetition. *)
Fixpoint dedup_blocks (ord : list (list nat) -> list (list nat)) (fuel : nat) (local : snaps) (p : bc) : option bc :=
  match dedup_once ord local p with
  | None => None
  | Some (p1, n) =>
      if (n =? 0)%nat then Some p1
      else match fuel with
           | O => None
           | S f => match refresh_cfg p1 with Some p2 => dedup_blocks ord f local p2 | None => None end
           end
  end.

(** [Bytecode::analyze] with the DEDUP flag, mod.rs:421-440: the local snapshots are kept for the pass. *)
Definition analyze_dedup (ord : list (list nat) -> list (list nat)) (env : aenv) (insts : list idata) : option bc :=
  match analyze_local env (initial insts) with
  | None => None
  | Some pl =>
      match analyze_global env pl with
      | None => None
      | Some p =>
          match dedup_blocks ord (length insts) (b_snaps pl) p with
          | Some p' => refresh_cfg p'
          | None => None
          end
      end
  end.
