(** Model of a translated contract as one running machine: the code of the blocks ([vrun]) and the
    branches that connect them.

    Source: crates/revmc-codegen/src/compiler/translate/mod.rs. Gas is not part of this machine (C06 to
    C08 are about it), nor are block deduplication's redirects (the model applies them, the theorem is
    about lists without any). *)
From Verif Require Export JumpModel SectionsModel VStackModel DseModel.
Open Scope Z_scope.

Section Whole.
Context {Y : Type}.
(** The state of the running code besides the stack: everything the instructions work on, and the
    place where the emitted branches lead. *)
Definition wstate : Type := Y * jnext.

(** JUMP and JUMPI, 972-1057, on operands given top first: [lower_jump] says which branch is emitted;
    a branch to the invalid-jump block ends the frame in the state [fin i [] y]. If the generator
    panics there is no code, which is modelled as a branch to nowhere. *)
Definition jump_code (env : aenv) (p : bc) (fin : nat -> list Z -> Y -> Y) (i : nat) (d : idata)
    (w : wstate) (args : list Z) : wstate * option (list Z) :=
  match lower_jump env p i d (nth 0 args 0) (nth 1 args 0) with
  | Some JInvalidJump => ((fin i [] (fst w), JInvalidJump), None)
  | Some x => ((fst w, x), Some [])
  | None => ((fst w, JUnreachable), Some [])
  end.

(** What the last instruction of a block branches to unless it is a jump: [branch_to_next_opcode],
    514-522 (emits nothing when there is no next instruction). *)
Definition fall (p : bc) (bl : blk) : jnext :=
  match effective_next_entry p (terminator bl) with Some x => x | None => JUnreachable end.

(** The stack-bounds check ([check_stack_bounds] of SectionsModel) stands at section heads, 600-603,
    before everything else the instruction does; it is about the length loaded there (586). Which of
    the two results a failing check returns (underflow before overflow) is not modelled. A disabled or
    unknown instruction fails before its check (567-573); its section is empty, so that its check never
    fails. [stack_bound_checks] is on by default (45). *)
Definition head_fails {W} (i : vinst W) (len : Z) : bool :=
  match vi_head i with
  | Some (inp, growth) => negb (check_stack_bounds (Z.of_nat inp, Z.of_nat growth) len)
  | None => false
  end.
(** The instructions of a block, [vrun], with the checks. *)
Inductive kres (A : Type) := KStack | KRes (a : A).
Fixpoint krun {W} (l : list (vinst W)) (nh : bool) (w : W) (c : cx) : option (kres (res W)) :=
  match l with
  | [] => Some (KRes _ (RNext w c))
  | i :: tl =>
    if head_fails i (c_len c) then Some (KStack _)
    else
      match vstep i (match tl with j :: _ => is_head j | [] => nh end) w c with
      | Some (RNext w' c') => krun tl nh w' c'
      | Some r => Some (KRes _ r)
      | None => None
      end
  end.

(** The running function: about to execute the code at a place, returned, or failed with a stack error. *)
Inductive cstate := CRun (at_ : jnext) (y : Y) (c : cx) | CDone (y : Y) | CFail.

(** Running the code from one block to the next (the loop over the instructions, 314-317): [code i] is
    what instruction [i] is translated to. [None]: undefined behaviour or no code at this place. *)
Definition cstep (p : bc) (code : nat -> vinst wstate) (s : cstate) : option cstate :=
  match s with
  | CDone y => Some (CDone y)
  | CFail => Some CFail
  | CRun (JGoto k) y c =>
    match find (fun bl => (bk_start bl =? k)%nat) (b_blocks p) with
    | Some bl =>
      match krun (map code (blk_insts bl)) true (y, fall p bl) c with
      | Some (KRes _ (RNext w c')) => Some (CRun (snd w) (fst w) c')
      | Some (KRes _ (RHalt w)) => Some (CDone (fst w))
      | Some (KStack _) => Some CFail
      | None => None
      end
    | None => None
    end
  | CRun _ _ _ => None
  end.
Fixpoint crun (p : bc) (code : nat -> vinst wstate) (n : nat) (s : cstate) : option cstate :=
  match n with
  | O => Some s
  | S m => match cstep p code s with Some s' => crun p code m s' | None => None end
  end.
End Whole.
Arguments KStack {A}.
Arguments KRes {A} a.
Arguments wstate : clear implicits.
Arguments cstate : clear implicits.
