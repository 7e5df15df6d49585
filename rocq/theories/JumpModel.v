(** Model of the control transfers the code generator emits.

    Source: crates/revmc-codegen/src/compiler/translate/mod.rs. *)
From Verif Require Export BlockModel.
Open Scope Z_scope.

(** Where emitted code continues: at an instruction's IR block, in the invalid-jump failure block, or
    in the [unreachable] block (undefined behaviour). *)
Inductive jnext := JGoto (i : nat) | JInvalidJump | JUnreachable.

(** [effective_inst], 481-483. *)
Definition effective_inst (p : bc) (i : nat) : nat :=
  match lookup i (b_redirects p) with Some t => t | None => i end.
(** [inst_entries] (238-248) and [effective_entry], 486-488. *)
Definition effective_entry (p : bc) (i : nat) : jnext :=
  let k := effective_inst p i in
  match nth_error (b_insts p) k with
  | Some d => if is_dead d then JUnreachable else JGoto k
  | None => JUnreachable
  end.
(** [effective_next_entry], 491-498 (redirects are applied twice). [None] stands for a missing
    lexical successor ([expect] panics). *)
Definition effective_next_entry (p : bc) (i : nat) : option jnext :=
  if (S i <? length (b_insts p))%nat then Some (effective_entry p (effective_inst p (S i))) else None.

(** A [switch] on the pcs of jump destinations, 1003-1012 and 327-337. *)
Fixpoint switch_pcs (env : aenv) (p : bc) (ts : list nat) (v : Z) : jnext :=
  match ts with
  | [] => JInvalidJump
  | t :: ts' => if a_const env t =? v then effective_entry p t else switch_pcs env p ts' v
  end.
(** Cases of the dynamic jump table, 327-337: live JUMPDESTs. *)
Definition table_insts (p : bc) : list nat :=
  filter (fun i => match nth_error (b_insts p) i with
                   | Some d => is_jumpdest d && negb (is_dead d) | None => false end)
         (seq 0 (length (b_insts p))).
(** [u256_to_u64_saturating], 2021-2029. *)
Definition saturate64 (v : Z) : Z := if v <=? 2 ^ 64 - 1 then v mod 2 ^ 64 else 2 ^ 64 - 1.

(** JUMP and JUMPI, 972-1057: operands [t] and (JUMPI) [c]; [None] if the generator panics. *)
Definition lower_jump (env : aenv) (p : bc) (i : nat) (d : idata) (t c : Z) : option jnext :=
  let f := d_flags d in
  if f_invalid f && (d_op d =? OP_JUMP) then Some JInvalidJump
  else
    let target :=
      if f_invalid f then Some JInvalidJump
      else if f_multi f then
        match b_multi p i with Some ts => Some (switch_pcs env p ts t) | None => None (* unwrap *) end
      else if f_static f then Some (effective_entry p (d_target d))
      else Some (if b_dyn p then switch_pcs env p (table_insts p) (saturate64 t) else JUnreachable) in
    if (d_op d =? OP_JUMPI) && negb (has_const_jumpi_condition d) then
      match target, effective_next_entry p i with
      | Some x, Some next => Some (if c =? 0 then next else x)
      | _, _ => None
      end
    else target.
