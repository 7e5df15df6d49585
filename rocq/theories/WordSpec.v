(** Specification of words as byte strings: positional notation. *)
From Coq Require Export List ZArith.
Export ListNotations.
Open Scope Z_scope.

(** Value of a big-endian and of a little-endian byte string. *)
Fixpoint be_number (l : list Z) : Z :=
  match l with [] => 0 | b :: l' => b * 256 ^ Z.of_nat (length l') + be_number l' end.
Definition le_number (l : list Z) : Z := be_number (rev l).
(** A byte string of length [n]. *)
Definition bytes (n : nat) (l : list Z) : Prop := length l = n /\ Forall (fun b => 0 <= b < 256) l.
