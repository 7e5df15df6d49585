(** Specification for the virtual stack: the EVM stack as a list, and what it means for the compiled
    state to represent it. Independent of how slots are tracked. *)
From Coq Require Export ZArith List Bool Lia.
From Verif Require Export VStackModel.
Export ListNotations.
Open Scope Z_scope.

Section Spec.
Context {W : Type}.
Implicit Types (i : vinst W) (w : W) (st : list Z).

(** One EVM step on a stack given as a list, top first. [None] is a stack underflow. *)
Inductive eres := EHalt (w : W) | ENext (w : W) (st : list Z).
Definition swap_nth (st : list Z) (i j : nat) : list Z := upd (upd st i (nth j st 0)) j (nth i st 0).
Definition estep i w st : option eres :=
  if (length st <? vi_in i)%nat then None
  else
    match vi_evm i with
    | EOp f => match f w (firstn (vi_in i) st) with
               | (w', Some outs) => Some (ENext w' (outs ++ skipn (vi_in i) st))
               | (w', None) => Some (EHalt w')
               end
    | EDup n => Some (ENext w (nth (n - 1) st 0 :: st))
    | ESwap a b => Some (ENext w (swap_nth st a b))
    | ECall f => match f w (firstn (vi_in i) st) (skipn (vi_in i) st) with
                 | (w', Some st') => Some (ENext w' st')
                 | (w', None) => Some (EHalt w')
                 end
    end.
Fixpoint erun (l : list (vinst W)) w st : option eres :=
  match l with
  | [] => Some (ENext w st)
  | i :: tl => match estep i w st with Some (ENext w' st') => erun tl w' st' | r => r end
  end.

(** What the analysis promises holds at every instruction the run reaches. *)
Fixpoint facts_hold (l : list (vinst W)) w st : Prop :=
  match l with
  | [] => True
  | i :: tl =>
    vi_fact i (firstn (vi_in i) st) /\
    match estep i w st with Some (ENext w' st') => facts_hold tl w' st' | _ => True end
  end.

(** The emitted code and the analysis results of an instruction agree with its meaning. Each clause is
    about the opcode alone: which operands the emitted code uses, and that the computation it performs
    is the opcode's on all operands the analysis promises (C05, C13, C20 and C21 establish these). *)
Definition const_inputs_ok i : Prop :=
  forall d k, vi_cin i d = Some k ->
  (d < vi_in i)%nat /\ forall args, length args = vi_in i -> vi_fact i args -> nth d args 0 = k.
Definition const_output_ok i : Prop :=
  forall k, vi_cout i = Some k ->
  match vi_evm i with
  | EOp f => vi_out i = 1%nat /\ is_exit (vi_body i) = false /\
             forall w args, length args = vi_in i -> vi_fact i args -> f w args = (w, Some [k])
  | EDup n => forall args, length args = vi_in i -> vi_fact i args -> nth (n - 1) args 0 = k
  | _ => False
  end.
Definition ignoring (read : bool) (x : Z) : Z := if read then x else 0.
Definition body_ok i : Prop :=
  match vi_evm i, vi_body i with
  | EDup n, BDup m => n = m /\ (1 <= n)%nat /\ vi_in i = n /\ vi_out i = S n
  | ESwap a b, BExchange n m => a = n /\ b = (n + m)%nat /\ (1 <= m)%nat /\ vi_in i = S (n + m) /\ vi_out i = S (n + m)
  | ECall _, BCall => vi_out i = 1%nat
  | EOp f, b =>
    (forall w args outs, length args = vi_in i -> snd (f w args) = Some outs -> length outs = vi_out i) /\
    match b with
    | BHalt => vi_in i = 0%nat /\ vi_out i = 0%nat /\ forall w, snd (f w []) = None
    | BNop => vi_in i = 0%nat /\ vi_out i = 0%nat
    | BInline n o => vi_in i = n /\ vi_out i = if o then 1%nat else 0%nat
    | BPop => vi_in i = 1%nat /\ vi_out i = 0%nat /\ forall w args, f w args = (w, Some [])
    | BBuiltin => True
    | BBuiltinTop => vi_in i = 0%nat /\ vi_out i = 1%nat
    | BFold k => vi_out i = 1%nat /\ forall w args, length args = vi_in i -> vi_fact i args -> f w args = (w, Some [k])
    | BExpGas pay r reads =>
      vi_in i = 2%nat /\ vi_out i = 1%nat /\ vi_cin i 1%nat = None /\
      forall w a e, vi_fact i [a; e] ->
      f w [a; e] = (fst (pay w e), if snd (pay w e) then Some [r (if reads then [a; e] else [])] else None)
    | BLoadC k => vi_in i = 1%nat /\ vi_out i = 1%nat /\ forall w x, vi_fact i [x] -> f w [x] = f w [k]
    | BKeccakC off len =>
      vi_in i = 2%nat /\ vi_out i = 1%nat /\ forall w a b, vi_fact i [a; b] -> f w [a; b] = f w [off; len]
    | BReturnC off len =>
      vi_in i = 2%nat /\ vi_out i = 0%nat /\ (forall w args, snd (f w args) = None) /\
      forall w a b, vi_fact i [a; b] -> f w [a; b] = f w [off; len]
    | BReturn => vi_out i = 0%nat /\ forall w args, snd (f w args) = None
    | BJump read None =>
      vi_in i = 1%nat /\ vi_out i = 0%nat /\
      forall w t, vi_fact i [t] -> f w [t] = f w [ignoring read t]
    | BJump read (Some rc) =>
      vi_in i = 2%nat /\ vi_out i = 0%nat /\
      forall w t b, vi_fact i [t; b] -> f w [t; b] = f w [ignoring read t; ignoring rc b]
    | _ => False
    end
  | _, _ => False
  end.
(** A no-op'd instruction computes its results without touching the machine state. *)
Definition noop_ok i : Prop :=
  vi_noop i = true -> is_exit (vi_body i) = false /\
  match vi_evm i with
  | EOp f => forall w args, length args = vi_in i -> exists outs, f w args = (w, Some outs)
  | ECall _ => False
  | _ => True
  end.
Definition inst_ok i : Prop := const_inputs_ok i /\ const_output_ok i /\ body_ok i /\ noop_ok i.

(** The stack sections cover what their instructions need (what C08/C09 say of the summaries): [slo]
    is the height relative to the section start, [inp] and [gr] the section's inputs and growth. *)
Fixpoint fits (slo inp gr : Z) (l : list (vinst W)) : Prop :=
  match l with
  | [] => True
  | i :: tl =>
    let '(slo, inp, gr) :=
      match vi_head i with Some (a, b) => (0, Z.of_nat a, Z.of_nat b) | None => (slo, inp, gr) end in
    - inp <= slo - Z.of_nat (vi_in i) /\
    slo - Z.of_nat (vi_in i) + Z.of_nat (vi_out i) <= gr /\
    fits (slo - Z.of_nat (vi_in i) + Z.of_nat (vi_out i)) inp gr tl
  end.

(** Section boundaries are where translate_inst and the sections pass put them: an instruction that
    leaves the section to continue elsewhere is followed by a head, and the instruction before a head is not a no-op'd one;
    [nh] says whether what follows the line is a head. *)
Definition leaves (b : body W) : bool := match b with BJump _ _ | BCall => true | _ => false end.
Fixpoint ends_ok (l : list (vinst W)) (nh : bool) : Prop :=
  match l with
  | [] => True
  | i :: tl =>
    let nh' := match tl with j :: _ => is_head j | [] => nh end in
    (leaves (vi_body i) = true -> nh' = true) /\ (vi_noop i = true -> nh' = false) /\ ends_ok tl nh
  end.
Definition starts_head (l : list (vinst W)) : Prop := match l with i :: _ => is_head i = true | [] => False end.
(** The line ends by leaving the section. *)
Fixpoint last_exit (l : list (vinst W)) : bool :=
  match l with [] => false | [i] => is_exit (vi_body i) | _ :: tl => last_exit tl end.

End Spec.
Arguments eres : clear implicits.

(** The value the compiled code associates with absolute stack slot [p]: the virtual value when the
    slot is tracked as virtual, the stack memory otherwise. *)
Definition slot_value (c : cx) (p : Z) : Z :=
  match vs_slot (c_vs c) (p - c_start c) with Some (Virtual x) => x | _ => c_mem c p end.

(** Inside a section the compiled state represents [st]: the heights agree, the virtual stack tracks
    every slot of the section that is live, and every slot holds its element. Restricted to the slots
    satisfying [live]; slot [p] holds the element at depth [length st - 1 - p]. *)
Definition represents_on (live : Z -> Prop) (c : cx) (st : list Z) : Prop :=
  c_start c + c_slo c = Z.of_nat (length st) /\
  v_top (c_vs c) = c_slo c /\
  (forall p, 0 <= p < Z.of_nat (length st) -> live p ->
             slot_value c p = nth (length st - 1 - Z.to_nat p) st 0).
Definition represents := represents_on (fun _ => True).

(** At a section boundary the stack is in memory, and its length in the alloca. *)
Definition in_memory_on (live : Z -> Prop) (c : cx) (st : list Z) : Prop :=
  c_len c = Z.of_nat (length st) /\
  (forall p, 0 <= p < Z.of_nat (length st) -> live p ->
             c_mem c p = nth (length st - 1 - Z.to_nat p) st 0).
Definition in_memory := in_memory_on (fun _ => True).
