(** Model of gas and stack sections: their construction and the checks generated from them.

    Sources: crates/revmc-codegen/src/bytecode/passes/sections.rs, bytecode/mod.rs (construct_sections),
    compiler/translate/mod.rs (translate_inst prologue, check_stack_bounds). *)
From Verif Require Export InstModel SectionsSpec.
Open Scope Z_scope.

Definition U32_MAX := 2 ^ 32 - 1.
Definition U16_MAX := 2 ^ 16 - 1.
Definition I16_MAX := 2 ^ 15 - 1.

(** [GasSectionAnalysis] and [StackSectionAnalysis], sections.rs:77-81 and 139-145, as one record.
    The u64/i32 accumulators are unbounded integers here: they cannot overflow below 2^22
    instructions (255 stack items and 65535 gas each), EXP extras aside. *)
Record sstate := mkS {
  s_gas : Z; s_gas_start : nat;
  s_inputs : Z; s_diff : Z; s_growth : Z; s_stack_start : nat
}.
Definition s_init : sstate := mkS 0 0 0 0 0 0.

(** [GasSectionAnalysis::process]/[process_extra], sections.rs:90-100. *)
Definition gas_process (s : sstate) (g : Z) : sstate :=
  mkS (s_gas s + g) (s_gas_start s) (s_inputs s) (s_diff s) (s_growth s) (s_stack_start s).
(** [StackSectionAnalysis::process], sections.rs:160-166. *)
Definition stack_process (s : sstate) (io : Z * Z) : sstate :=
  let inputs := Z.max (s_inputs s) (fst io - s_diff s) in
  let diff := s_diff s + (snd io - fst io) in
  mkS (s_gas s) (s_gas_start s) inputs diff (Z.max (s_growth s) diff) (s_stack_start s).
(** [reset], sections.rs:128-131 and 193-196. *)
Definition gas_reset (s : sstate) (i : nat) : sstate :=
  mkS 0 i (s_inputs s) (s_diff s) (s_growth s) (s_stack_start s).
Definition stack_reset (s : sstate) (i : nat) : sstate := mkS (s_gas s) (s_gas_start s) 0 0 0 i.
(** [section], sections.rs:133-136: u64 -> u32, saturating. *)
Definition gas_section (s : sstate) : Z := if s_gas s <=? U32_MAX then s_gas s else U32_MAX.
(** [section], sections.rs:198-204: i32 -> u16 / i16, saturating up (negative values do not occur). *)
Definition stack_section (s : sstate) : Z * Z :=
  (if (0 <=? s_inputs s) && (s_inputs s <=? U16_MAX) then s_inputs s else U16_MAX,
   if s_growth s <=? I16_MAX then s_growth s else I16_MAX).

(** [bytecode.insts[start..].iter_mut().find(|inst| !inst.is_dead_code())], then an update. *)
Fixpoint upd_first_live (f : idata -> idata) (l : list idata) : list idata :=
  match l with
  | [] => []
  | d :: l' => if is_dead d then d :: upd_first_live f l' else f d :: l'
  end.
Fixpoint upd_first_live_from (start : nat) (f : idata -> idata) (l : list idata) : list idata :=
  match start, l with
  | O, _ => upd_first_live f l
  | S n, [] => []
  | S n, d :: l' => d :: upd_first_live_from n f l'
  end.

(** [GasSectionAnalysis::save_to], sections.rs:107-126. A start beyond the end updates nothing. *)
Definition gas_save (s : sstate) (l : list idata) : list idata :=
  if gas_section s =? 0 then l
  else upd_first_live_from (s_gas_start s) (fun d => set_gas_section d (gas_section s)) l.
(** [StackSectionAnalysis::save_to], sections.rs:173-191. *)
Definition stack_save (s : sstate) (l : list idata) : list idata :=
  upd_first_live_from (s_stack_start s) (fun d => set_stack_section (set_head d) (stack_section s)) l.
(** [save_to_reset] of both analyses, stack first. *)
Definition save_reset (s : sstate) (l : list idata) (next : nat) : sstate * list idata :=
  let l1 := stack_save s l in
  let s1 := stack_reset s next in
  let l2 := gas_save s1 l1 in
  (gas_reset s1 next, l2).

(** The condition that ends both sections after an instruction, sections.rs:238. *)
Definition ends_section (istanbul : bool) (d : idata) : bool :=
  may_suspend d || is_branching d || requires_gasleft istanbul d.

(** [SectionsAnalysis::process], sections.rs:215-244. [extra i] is the static part of EXP's dynamic
    gas (sections.rs:228-236; [exp_static_gas] of ArithModel for an EXP, 0 for the others). *)
Definition sec_process (dyn istanbul : bool) (extra : nat -> Z) (s : sstate) (l : list idata) (i : nat)
  : sstate * list idata :=
  match nth_error l i with
  | None => (s, l)
  | Some d =>
      let '(s1, l1) := if is_reachable_jumpdest dyn d then save_reset s l i else (s, l) in
      let s2 := gas_process (stack_process s1 (d_io d)) (d_gas d) in
      let s3 := gas_process s2 (extra i) in
      if ends_section istanbul d then save_reset s3 l1 (S i) else (s3, l1)
  end.

(** The loop of [construct_sections], mod.rs:579-587. *)
Fixpoint sec_loop (dyn istanbul : bool) (extra : nat -> Z) (idx : list nat) (s : sstate) (l : list idata)
  : sstate * list idata :=
  match idx with
  | [] => (s, l)
  | i :: idx' =>
      match nth_error l i with
      | Some d =>
          if is_dead d then sec_loop dyn istanbul extra idx' s l
          else let '(s', l') := sec_process dyn istanbul extra s l i in
               sec_loop dyn istanbul extra idx' s' l'
      | None => sec_loop dyn istanbul extra idx' s l
      end
  end.
(** [construct_sections] with [finish] (sections.rs:246-250; the tracing code is omitted). *)
Definition construct_sections (dyn istanbul : bool) (extra : nat -> Z) (l : list idata) : list idata :=
  let '(s, l1) := sec_loop dyn istanbul extra (seq 0 (length l)) s_init l in
  stack_save s (gas_save s l1).

(** [StackSection::from_stack_io], sections.rs:67-74. *)
Definition from_stack_io (ios : list (Z * Z)) : Z * Z :=
  stack_section (fold_left stack_process ios s_init).

(** ** Generated checks. *)

Definition STACK_CAP := 1024.

(** [check_stack_bounds], translate/mod.rs:1765-1801: [true] = passes. [len] is unsigned. *)
Definition check_stack_bounds (sec : Z * Z) (len : Z) : bool :=
  let '(inp, diff) := sec in
  let underflow := len <? inp in
  let overflow := if STACK_CAP <? diff then true else STACK_CAP - diff <? len in
  if (0 <? inp) && (0 <? diff) then negb (underflow || overflow)
  else if 0 <? inp then negb underflow
  else if 0 <? diff then negb overflow
  else true.

(** Prologue of every instruction, translate/mod.rs:549-599: [None] = failure, [Some gas'] = go on
    with the remaining gas. Disabled and unknown instructions fail before paying. *)
Definition prologue (d : idata) (gas len : Z) : option Z :=
  if f_disabled (d_flags d) then None
  else if f_unknown (d_flags d) then None
  else if gas <? d_gas_section d then None
  else if f_head (d_flags d) && negb (check_stack_bounds (d_stack_section d) len) then None
  else Some (gas - d_gas_section d).

(** ** The compiled machine: prologue, then the instruction body. Dynamic gas already paid in the
    section ([extra]) is not paid again (translate/mod.rs: peephole.rs / const output skip ExpGas). *)
Section Compiled.
  Context {X R : Type}.
  Variable sem : nat -> Z -> Z -> X -> outcome X R.
  Variable istanbul : bool.
  Variable extra : nat -> Z.

  Definition comp_step (prog : list idata) (s : mstate X) : list (mstate X) * mres X R :=
    match nth_error prog (m_i s) with
    | None => ([], MFail)
    | Some d =>
        match prologue d (m_gas s) (m_len s) with
        | None => ([], MFail)
        | Some g1 => body sem istanbul d (extra (m_i s)) s g1
        end
    end.
End Compiled.

(** ** Control-flow discipline assumed of the rest of the compiler (discharged by the dead-code and
    dedup models). [entry l k]: instruction [k] is live and is an entry point: the first live
    instruction, a reachable JUMPDEST, or right after a live instruction that ends sections. *)
Definition entry (dyn istanbul : bool) (l : list idata) (k : nat) : Prop :=
  exists d, nth_error l k = Some d /\ is_dead d = false /\
    (is_reachable_jumpdest dyn d = true \/
     match prev_live l k with None => True | Some p => ends_section istanbul p = true end).

(** From a live instruction [i] control goes to the next instruction, or to an entry point; in the
    second case no live instruction continues after [i] without being a reachable JUMPDEST. *)
Definition goes_to (dyn istanbul : bool) (l : list idata) (i j : nat) (d : idata) : Prop :=
  (j = S i /\ exists d', nth_error l j = Some d' /\ is_dead d' = false) \/
  (entry dyn istanbul l j /\
   (ends_section istanbul d = true \/
    match next_live l i with None => True | Some d' => is_reachable_jumpdest dyn d' = true end)).

(** Freshly parsed instructions: no section attached yet, unsigned quantities. *)
Definition unsectioned (l : list idata) : Prop :=
  Forall (fun d => d_gas_section d = 0 /\ f_head (d_flags d) = false /\
                   0 <= d_gas d /\ 0 <= fst (d_io d) /\ 0 <= snd (d_io d)) l.

(** What is assumed of instruction bodies: dynamic gas covers what was prepaid and is not negative;
    only gas-observing instructions read the gas left or are given gas back; only STOP-like
    instructions end the frame normally; control flow obeys [goes_to]. *)
Record bodies_ok {X R : Type} (dyn istanbul : bool) (extra : nat -> Z)
    (sem : nat -> Z -> Z -> X -> outcome X R) (l : list idata) : Prop := {
  bo_extra : forall i, 0 <= extra i;
  bo_extra_end : forall i d, nth_error l i = Some d -> ends_section istanbul d = true -> extra i = 0;
  bo_next : forall i d g h x sp gv j x', nth_error l i = Some d -> is_dead d = false ->
    sem i g h x = ONext sp gv j x' ->
    extra i <= sp /\ 0 <= gv /\ goes_to dyn istanbul l i j d /\
    (observes_gas istanbul (d_op d) = false -> gv = 0);
  bo_stop : forall i d g h x sp r x', nth_error l i = Some d ->
    sem i g h x = OStop sp r x' -> extra i <= sp /\ ends_frame (d_op d) = true;
  bo_gas : forall i d g g' h x, nth_error l i = Some d -> observes_gas istanbul (d_op d) = false ->
    sem i g h x = sem i g' h x
}.
