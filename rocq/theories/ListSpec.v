(** What a reader of the listing expects. *)
From Verif Require Export ListModel.

(** Text without line ends. *)
Definition clean (t : text) : Prop := forall c, In c t -> c <> nl /\ c <> cr.
Definition blank (t : text) : Prop := forall c, In c t -> c = sp.
(** The line shows an instruction: indented opcode text, its number and its program counter. *)
Definition shows (L : bytecode) (i : nat) (l : text) : Prop :=
  exists u v w, blank u /\ blank v /\ blank w /\
  l = lit "  " ++ l_op L i ++ u ++ lit " ; ic=" ++ v ++ dec i ++ lit " pc=" ++ w ++ dec (l_pc L i) ++ l_rest L i.
(** The instruction is in a block and alive. *)
Definition listed (L : bytecode) (i : nat) : Prop := l_dead L i = false /\ exists b, In b (l_blocks L) /\ In i (b_insts b).
(** Blocks do not share instructions, and no part of the listing contains line ends. *)
Definition good (L : bytecode) : Prop :=
  NoDup (flat_map b_insts (l_blocks L)) /\ (forall b i, In b (l_blocks L) -> In i (b_insts b) -> i < l_n L)
  /\ clean (l_head1 L) /\ clean (l_head2 L) /\ (forall b, In b (l_blocks L) -> clean (b_header b) /\ clean (b_comment b))
  /\ (forall i, clean (l_op L i)) /\ (forall i, clean (l_rest L i)).
(** White space removed at both ends. *)
Definition white (t : text) : Prop := forall c, In c t -> In (nat_of_ascii c) [32; 9; 10; 11; 12; 13].
Definition trimmed (l t : text) : Prop :=
  exists u v, l = u ++ t ++ v /\ white u /\ white v
  /\ (forall c t', t = c :: t' -> ~ white [c]) /\ (forall c t', t = t' ++ [c] -> ~ white [c]).
(** [r] copies of a pair of digits. *)
Fixpoint pairs (r : nat) (p : text) : text := match r with O => [] | S r' => p ++ pairs r' p end.
