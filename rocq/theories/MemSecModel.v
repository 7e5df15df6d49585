(** Memory sections: which accesses need no size check.
    Sources: crates/revmc-codegen/src/bytecode/passes/memory_sections.rs, bytecode/mod.rs
    ([const_memory_accesses]), compiler/translate/mod.rs ([build_ensure_memory],
    [can_skip_ensure_memory]). Sizes are u64, here integers with explicit saturation. *)
From Verif Require Export BlockModel GasMemModel.
Open Scope Z_scope.

(** [operand] in [const_memory_accesses], mod.rs:711-712: constant operands that fit a u64. *)
Definition operand64 (p : bc) (i depth : nat) : option Z :=
  match const_operand p i depth with Some v => if v <? U64 then Some v else None | None => None end.
(** A memory access: offset and length, as far as they are constant. *)
Definition access : Type := option Z * option Z.
Definition zip_max (a b : option Z) : option Z :=
  match a, b with Some x, Some y => Some (Z.max x y) | _, _ => None end.

(** [const_memory_accesses], mod.rs:702-743; the array of two options is a list here. *)
Definition const_memory_accesses (p : bc) (i : nat) : list access :=
  match nth_error (b_insts p) i with
  | None => []
  | Some d =>
      let op := d_op d in
      let o := operand64 p i in
      if f_disabled (d_flags d) || f_unknown (d_flags d) then []
      else if (op =? 0x20) || (op =? 0xf3) || (op =? 0xfd) || (op =? 0xa0) then [(o 0%nat, o 1%nat)]
      else if (op =? 0x51) || (op =? 0x52) then [(o 0%nat, Some 32)]
      else if op =? 0x53 then [(o 0%nat, Some 1)]
      else if (op =? 0x37) || (op =? 0x39) || (op =? 0x3e) then [(o 0%nat, o 2%nat)]
      else if op =? 0x3c then [(o 1%nat, o 3%nat)]
      else if op =? 0x5e then [(zip_max (o 0%nat) (o 1%nat), o 2%nat)]
      else if op =? 0xa1 then [(o 1%nat, o 2%nat)]
      else if op =? 0xa2 then [(o 2%nat, o 3%nat)]
      else if op =? 0xa3 then [(o 3%nat, o 4%nat)]
      else if op =? 0xa4 then [(o 4%nat, o 5%nat)]
      else if (op =? 0xf0) || (op =? 0xf5) then [(o 1%nat, o 2%nat)]
      else if (op =? 0xf1) || (op =? 0xf2) then [(o 3%nat, o 4%nat); (o 5%nat, o 6%nat)]
      else if (op =? 0xf4) || (op =? 0xfa) then [(o 2%nat, o 3%nat); (o 4%nat, o 5%nat)]
      else []
  end.

(** [round_memory_size], memory_sections.rs:319-321. *)
Definition round_memory_size (size : Z) : Z := sat_u64 (size + 31) / 32 * 32.
(** [exact_memory_size_for_access], 301-308. *)
Definition exact_memory_size (a : access) : option Z :=
  match a with
  | (_, Some 0) => Some 0
  | (Some off, Some len) => Some (round_memory_size (sat_u64 (off + len)))
  | _ => None
  end.
(** [min_memory_size_for_access], 310-316. *)
Definition min_memory_size (a : access) : Z :=
  match a with
  | (_, Some 0) | (_, None) => 0
  | (Some off, Some len) => round_memory_size (sat_u64 (off + len))
  | (None, Some len) => round_memory_size len
  end.

(** [BlockMemoryState], 95-104. *)
Record mstate := mkMst { ms_known : option Z; ms_exact : option Z }.
Definition no_state : mstate := mkMst None None.
Definition opt_eqb (a b : option Z) : bool :=
  match a, b with Some x, Some y => x =? y | None, None => true | _, _ => false end.
Definition mstate_eqb (a b : mstate) : bool := opt_eqb (ms_known a) (ms_known b) && opt_eqb (ms_exact a) (ms_exact b).
(** [join_state], 286-299. *)
Definition join_state (entry pred : mstate) : mstate :=
  match ms_known pred, ms_known entry with
  | None, _ => entry
  | _, None => pred
  | Some kp, Some ke =>
      mkMst (Some (Z.min ke kp))
            (match ms_exact entry, ms_exact pred with
             | Some a, Some b => if a =? b then Some a else None
             | _, _ => None
             end)
  end.

(** [compute_block_memory_summaries], 169-186, for one block. *)
Definition block_accesses (p : bc) (b : blk) : list access := flat_map (const_memory_accesses p) (blk_insts b).
Definition block_min (p : bc) (b : blk) : Z := fold_left (fun m a => Z.max m (min_memory_size a)) (block_accesses p b) 0.
Definition block_exact (p : bc) (b : blk) : option Z :=
  fold_left (fun m a => zip_max m (exact_memory_size a)) (block_accesses p b) (Some 0).

(** [dynamic_jump_targets] and [dynamic_jump_blocks], 131-149. *)
Definition dyn_target (p : bc) (b : blk) : bool :=
  b_dyn p && match nth_error (b_insts p) (bk_start b) with Some d => is_reachable_jumpdest true d | None => false end.
Definition dyn_block (p : bc) (b : blk) : bool :=
  b_dyn p && match nth_error (b_insts p) (terminator b) with
             | Some d => is_jump d && negb (is_static_jump d) && negb (f_invalid (d_flags d))
             | None => false
             end.
Definition dyn_targets (p : bc) : list nat :=
  filter (fun b => match nth_error (b_blocks p) b with Some bl => dyn_target p bl | None => false end)
         (seq 0 (length (b_blocks p))).

(** [block_exit_state], 227-236. *)
Definition exit_state (p : bc) (b : blk) (s : mstate) : mstate :=
  mkMst (match ms_known s with Some k => Some (Z.max k (block_min p b)) | None => None end)
        (zip_max (ms_exact s) (block_exact p b)).

(** The loop of [compute_block_entry_states], 188-214: entry states, worklist (first in, first out,
    without duplicates) and [dynamic_exit_state]. *)
Record mloop := mkMl { ml_states : nat -> mstate; ml_queue : list nat; ml_dyn : mstate }.
(** [update_entry_state], 216-225. *)
Definition update_entry (inc : mstate) (sq : (nat -> mstate) * list nat) (b : nat) : (nat -> mstate) * list nat :=
  let '(st, q) := sq in
  let s' := join_state (st b) inc in
  if mstate_eqb s' (st b) then (st, q) else (upd st b s', wpush q b).
(** One iteration for block [bid], already popped, 199-213. *)
Definition ml_step (p : bc) (bid : nat) (l : mloop) : mloop :=
  match nth_error (b_blocks p) bid with
  | None => l (* index panic; queued blocks exist *)
  | Some b =>
      let ex := exit_state p b (ml_states l bid) in
      match ms_known ex with
      | None => l
      | Some _ =>
          let '(st1, q1) := fold_left (update_entry ex) (bk_succs b) (ml_states l, ml_queue l) in
          if dyn_block p b then
            let dx := join_state (ml_dyn l) ex in
            if mstate_eqb dx (ml_dyn l) then mkMl st1 q1 (ml_dyn l)
            else let '(st2, q2) := fold_left (update_entry dx) (dyn_targets p) (st1, q1) in mkMl st2 q2 dx
          else mkMl st1 q1 (ml_dyn l)
      end
  end.
(** The loop has no bound; [fuel] = iterations left, [None] = not finished ([ml_run_total]). *)
Fixpoint ml_run (p : bc) (fuel : nat) (l : mloop) : option (nat -> mstate) :=
  match ml_queue l with
  | [] => Some (ml_states l)
  | bid :: q =>
      match fuel with
      | O => None
      | S f => ml_run p f (ml_step p bid (mkMl (ml_states l) q (ml_dyn l)))
      end
  end.
Definition ml_init : mloop := mkMl (upd (fun _ => no_state) 0%nat (mkMst (Some 0) (Some 0))) [0%nat] no_state.
Definition entry_states (p : bc) (fuel : nat) : option (nat -> mstate) := ml_run p fuel ml_init.

(** [MemorySection], 7-21. *)
Record msection := mkSec { sec_known : Z; sec_required : Z; sec_direct : Z }.
Definition no_section : msection := mkSec 0 0 0.
(** One access in [save_sections], 247-281: sizes known so far and the section of the instruction. *)
Definition save_access (ks : Z * option Z * msection) (a : access) : Z * option Z * msection :=
  let '(known, exact, sec) := ks in
  let er := exact_memory_size a in
  let record := negb (known =? 0) || match er with Some n => negb (n =? 0) | None => false end in
  let sec1 := if (sec_known sec =? 0) && (sec_required sec =? 0) then mkSec known (sec_required sec) (sec_direct sec) else sec in
  let sec2 := match er with
              | Some n => mkSec (sec_known sec1) (Z.max (sec_required sec1) n)
                            (match exact with
                             | Some e => if e <? n then Z.max (sec_direct sec1) n else sec_direct sec1
                             | None => sec_direct sec1
                             end)
              | None => sec1
              end in
  (Z.max known (min_memory_size a), zip_max exact er, if record then sec2 else sec).
(** The instructions of a block. *)
Fixpoint save_insts (p : bc) (l : list nat) (known : Z) (exact : option Z) (secs : nat -> msection) : nat -> msection :=
  match l with
  | [] => secs
  | i :: l' =>
      let '(k', e', s') := fold_left save_access (const_memory_accesses p i) (known, exact, secs i) in
      save_insts p l' k' e' (upd secs i s')
  end.
(** [save_sections], 238-283. *)
Definition save_block (p : bc) (st : nat -> mstate) (secs : nat -> msection) (b : nat) : nat -> msection :=
  match ms_known (st b), nth_error (b_blocks p) b with
  | Some k, Some bl => save_insts p (blk_insts bl) k (ms_exact (st b)) secs
  | _, _ => secs
  end.
Definition memory_sections (p : bc) (fuel : nat) : option (nat -> msection) :=
  option_map (fun st => fold_left (save_block p st) (seq 0 (length (b_blocks p))) (fun _ => no_section)) (entry_states p fuel).

(** [can_skip_ensure_memory], translate/mod.rs:1724-1737. *)
Definition is_const (a : access) : bool := match a with (Some _, Some _) => true | _ => false end.
Definition can_skip (p : bc) (secs : nat -> msection) (i : nat) : bool :=
  (sec_required (secs i) <=? sec_known (secs i))
  && forallb is_const (const_memory_accesses p i)
  && match const_memory_accesses p i with [] => false | _ => true end.

(** [build_ensure_memory], translate/mod.rs:1686-1722, with all three paths. *)
Definition emitted_access (p : bc) (secs : nat -> msection) (i : nat) (m : mem) (offset len : Z) : option (Z * mem) :=
  let off := u256_to_u64_saturating offset 63 in
  if can_skip p secs i then Some (off, m)
  else if negb (sec_direct (secs i) =? 0)
  then match ensure_memory m ((off + len) mod U64) 0 with Some m' => Some (off, m') | None => None end
  else build_ensure_memory m offset len.
