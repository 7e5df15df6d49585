(** The cached pointer to the start of memory.
    Sources: crates/revmc-codegen/src/compiler/translate/mod.rs ([cached_mem_base], [translate_inst],
    [build_ensure_memory], [build_memory_addr], [call_builtin]), translate/peephole.rs.

    [ecx.mem_base] is loaded once and the loaded value is reused by later accesses. The model says for
    each access which instruction's load it uses; values are named by the instruction that loaded them. *)
From Verif Require Export SectionsModel MemSecModel.
Open Scope Z_scope.

(** Which opcodes call a builtin, translate/mod.rs:715-1144 (and create_common, call_common,
    return_common, 1366-1421). The arithmetic ones may be replaced by inline code when an operand is
    constant (peephole.rs:24-32): [inlined]. The peepholes of CALLDATALOAD, SLOAD, KECCAK256, RETURN and
    REVERT call another builtin (peephole.rs:276-335). *)
Definition calls_builtin (inlined : bool) (op : Z) : bool :=
  if (0x04 <=? op) && (op <=? 0x0a) then negb inlined
  else existsb (Z.eqb op)
    [0x20; 0x31; 0x32; 0x35; 0x37; 0x39; 0x3a; 0x3b; 0x3c; 0x3e; 0x3f; 0x40; 0x41; 0x42; 0x43; 0x44; 0x45; 0x46; 0x47; 0x48; 0x49; 0x4a; 0x4b;
     0x54; 0x55; 0x5c; 0x5d; 0x5e; 0xa0; 0xa1; 0xa2; 0xa3; 0xa4; 0xf0; 0xf1; 0xf2; 0xf3; 0xf4; 0xf5; 0xfa; 0xfd; 0xff].
(** MLOAD, MSTORE and MSTORE8, the users of [build_ensure_memory], translate/mod.rs:945-964. *)
Definition is_access (op : Z) : bool := (op =? 0x51) || (op =? 0x52) || (op =? 0x53).

(** [build_memory_addr], translate/mod.rs:1739-1743: reuse the cached base or load it. *)
Definition memory_addr (i : nat) (c : option nat) : nat := match c with Some k => k | None => i end.
(** [build_ensure_memory], translate/mod.rs:1686-1722: unless the check is skipped the cache is dropped
    (after the direct resize, or before the conditional one) and the base is loaded again. *)
Definition access_base (p : bc) (secs : nat -> msection) (i : nat) (c : option nat) : nat :=
  if can_skip p secs i then memory_addr i c
  else if negb (sec_direct (secs i) =? 0) then memory_addr i None
  else memory_addr i None.
(** [call_builtin], translate/mod.rs:1940-1953. *)
Definition call_cache (p : bc) (secs : nat -> msection) (i : nat) (c : option nat) : option nat :=
  if can_skip p secs i then c else None.

(** [translate_inst], translate/mod.rs:498-1144, as far as the cache is concerned: the cache before the
    body of the instruction (566-590) ... *)
Definition head_cache (d : idata) (c : option nat) : option nat := if f_head (d_flags d) then None else c.
(** ... and after it: instructions that fail (566-571), no-ops (607-611) and folded constants (628-655)
    emit nothing that matters. *)
Definition is_folded (p : bc) (i : nat) (d : idata) : bool :=
  (0 <? snd (d_io d)) && match const_output p i with Some _ => true | None => false end.
Definition inst_cache (p : bc) (secs : nat -> msection) (inlined : nat -> bool) (i : nat) (d : idata) (c : option nat) : option nat :=
  if f_disabled (d_flags d) || f_unknown (d_flags d) then c
  else
    let c := head_cache d c in
    if f_noop (d_flags d) then c
    else if is_folded p i d then c
    else if is_access (d_op d) then Some (access_base p secs i c)
    else if calls_builtin (inlined i) (d_op d) then call_cache p secs i c
    else c.
(** The loop over the instructions in order, dead code left out, translate/mod.rs:314-317. *)
Fixpoint cache_before (p : bc) (secs : nat -> msection) (inlined : nat -> bool) (i : nat) : option nat :=
  match i with
  | O => None
  | S k =>
      let c := cache_before p secs inlined k in
      match nth_error (b_insts p) k with
      | Some d => if is_dead d then c else inst_cache p secs inlined k d c
      | None => c
      end
  end.
(** The load whose value the access emitted for instruction [i] uses; [None] if it emits no access. *)
Definition base_source (p : bc) (secs : nat -> msection) (inlined : nat -> bool) (i : nat) : option nat :=
  match nth_error (b_insts p) i with
  | Some d =>
      if is_dead d || f_disabled (d_flags d) || f_unknown (d_flags d) || f_noop (d_flags d) || is_folded p i d || negb (is_access (d_op d)) then None
      else Some (access_base p secs i (head_cache d (cache_before p secs inlined i)))
  | None => None
  end.

(** The last steps of [analyze], bytecode/mod.rs:438-445: dead store elimination if enabled, then the
    sections of gas and stack, then those of memory. *)
Definition finish_sections (istanbul : bool) (extra : nat -> Z) (p : bc) : bc :=
  with_insts p (construct_sections (b_dyn p) istanbul extra (b_insts p)).
