(** Property C44: word conversions. *)
From Verif Require Import WordModel WordSpec WordProof.
Open Scope Z_scope.

(** C44. On little- and big-endian machines ([big]), for 32- and 64-bit usize ([bits]). [w] is a stack
    word (32 bytes in memory), its value is [to_u256 w]. *)
Theorem C44_integers big u w : is_word u -> bytes 32 w ->
  bytes 32 (from_u256 big u) /\ to_u256 big (from_u256 big u) = u /\
  is_word (to_u256 big w) /\ from_u256 big (to_u256 big w) = w.
Proof. intros U B. destruct (word_roundtrip big u U), (word_back big w B). auto. Qed.
Print Assumptions C44_integers.

Theorem C44_byte_strings big w b : bytes 32 w -> bytes 32 b ->
  (* reading a word out *)
  be_number (to_be_bytes big w) = to_u256 big w /\ le_number (to_le_bytes big w) = to_u256 big w /\
  (* and in *)
  to_u256 big (from_be_bytes big b) = be_number b /\ to_u256 big (from_le_bytes big b) = le_number b /\
  (* and both *)
  from_be_bytes big (to_be_bytes big w) = w /\ from_le_bytes big (to_le_bytes big w) = w /\
  to_be_bytes big (from_be_bytes big b) = b /\ to_le_bytes big (from_le_bytes big b) = b.
Proof.
  intros [LW _] [LB _]. repeat split.
  - exact (be_bytes_value big w LW).
  - exact (le_bytes_value big w LW).
  - exact (of_be_bytes_value big b LB).
  - exact (of_le_bytes_value big b LB).
  - destruct big; [reflexivity|apply rev_involutive].
  - destruct big; [apply rev_involutive|reflexivity].
  - destruct big; [reflexivity|apply rev_involutive].
  - destruct big; [apply rev_involutive|reflexivity].
Qed.
Print Assumptions C44_byte_strings.

(** Shorter strings are the same number; longer ones are rejected. *)
Theorem C44_slices big b : Forall (fun x => 0 <= x < 256) b ->
  if (length b <=? 32)%nat
  then (exists w, from_be_slice big b = Some w /\ bytes 32 w /\ to_u256 big w = be_number b) /\
       (exists w, from_le_slice big b = Some w /\ bytes 32 w /\ to_u256 big w = le_number b)
  else from_be_slice big b = None /\ from_le_slice big b = None.
Proof.
  intros F. unfold from_be_slice, from_le_slice. destruct (length b <=? 32)%nat eqn:L; [|auto]. apply Nat.leb_le in L.
  rewrite be_value_number, <- le_number_val. unfold le_number. split; eexists; (split; [reflexivity|]).
  - apply word_roundtrip. apply slice_word; assumption.
  - apply word_roundtrip. apply slice_word; [rewrite rev_length; exact L|apply Forall_rev; exact F].
Qed.
Print Assumptions C44_slices.

(** An address is the low 160 bits; an address put into a word is itself. *)
Theorem C44_addresses big w a : bytes 32 w -> bytes 20 a ->
  bytes 20 (to_address big w) /\ be_number (to_address big w) = to_u256 big w mod 2 ^ 160 /\
  to_u256 big (from_be_bytes big (into_word a)) = be_number a /\ to_address big (from_be_bytes big (into_word a)) = a.
Proof.
  intros B [LA FA]. destruct (address_value big w B) as (A1 & A2). split; [exact A1|]. split; [exact A2|]. split.
  - rewrite of_be_bytes_value by (unfold into_word; rewrite app_length, LA; reflexivity). apply into_word_value.
  - unfold to_address. replace (to_be_bytes big (from_be_bytes big (into_word a))) with (into_word a) by (destruct big; [reflexivity|symmetry; apply rev_involutive]). reflexivity.
Qed.
Print Assumptions C44_addresses.

(** Conversion to a machine integer succeeds exactly when the value fits, and saturates otherwise. *)
Theorem C44_machine_integers bits big w n : bytes 32 w -> bits = 32 \/ bits = 64 ->
  (try_usize bits big w = Some n <-> to_u256 big w = n /\ n < 2 ^ bits) /\
  as_usize_sat bits (to_u256 big w) = Z.min (to_u256 big w) (2 ^ bits - 1) /\
  as_u64_sat (to_u256 big w) = Z.min (to_u256 big w) (2 ^ 64 - 1).
Proof.
  intros B K. destruct (word_back big w B) as (U & _). split; [apply try_usize_spec; [exact B|lia]|].
  split; [apply as_usize_sat_spec; [exact U|lia]|apply as_u64_sat_spec; exact U].
Qed.
Print Assumptions C44_machine_integers.

(** The word 0x0102...1f20. *)
Definition ex_word : list Z := map Z.of_nat (seq 1 32).
Example C44_ex : bytes 32 ex_word /\ bytes 20 (skipn 12 ex_word) /\
  from_u256 false (be_number ex_word) = rev ex_word /\ from_u256 true (be_number ex_word) = ex_word /\
  to_address false (rev ex_word) = skipn 12 ex_word /\ try_usize 64 false (rev ex_word) = None /\
  try_usize 64 false (5 :: repeat 0 31) = Some 5 /\ try_usize 32 false (repeat 0 4 ++ [1] ++ repeat 0 27) = None /\
  try_usize 64 false (repeat 0 4 ++ [1] ++ repeat 0 27) = Some (2 ^ 32).
Proof.
  split; [split; [reflexivity|repeat constructor; lia]|]. split; [split; [reflexivity|repeat constructor; lia]|]. vm_compute. repeat split.
Qed.
