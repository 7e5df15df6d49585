(** Properties C22 and C23: computed memory offsets, the gas counter. *)
From Verif Require Import GasMemModel GasMemSpec GasMemProof.
Open Scope Z_scope.

(** C22, inlined accesses (MLOAD, MSTORE, MSTORE8): for every 256-bit offset, the compiled access
    succeeds exactly when the EVM's does, at the true offset, with the EVM's memory size and gas.
    [mem_ok]: the gas left plus the gas already paid for memory is below 2^55. *)
Theorem C22_inline_access m off len :
  mem_ok m -> is_word off -> 0 < len < 2 ^ 63 ->
  match evm_touch (mm_gas m) (mm_words m) off len with
  | None => build_ensure_memory m off len = None
  | Some (g', w') => build_ensure_memory m off len = Some (off, mkMem g' w' (C_mem w'))
  end.
Proof. exact (build_ensure_memory_spec m off len). Qed.
Print Assumptions C22_inline_access.

(** C22, builtins with computed offset and length (an empty range touches nothing, whatever its offset). *)
Theorem C22_builtin_range m off len :
  mem_ok m -> is_word off -> is_word len ->
  match evm_range (mm_gas m) (mm_words m) off len with
  | None => builtin_range m off len = None
  | Some (g', w') => builtin_range m off len =
      Some (if len =? 0 then None else Some (off, len), mkMem g' w' (C_mem w'))
  end.
Proof. exact (builtin_range_all m off len). Qed.
Print Assumptions C22_builtin_range.

Example C22_ex : mem_ok (mkMem 30000000 2 6) /\
  build_ensure_memory (mkMem 30000000 2 6) 100 32 = Some (100, mkMem 29999991 5 15) /\
  build_ensure_memory (mkMem 30000000 2 6) 31 32 = Some (31, mkMem 30000000 2 6) /\
  build_ensure_memory (mkMem 30000000 2 6) (2 ^ 64) 32 = None /\
  evm_touch 30000000 2 (2 ^ 64) 32 = None.
Proof. repeat split; vm_compute; congruence. Qed.

(** Without a bound on the gas the claim is false: the saturating memory price is about 2^60 for
    2^63 bytes, so a frame holding more gas than that grows its memory to the clamped offset
    where the EVM runs out of gas (finding F12). *)
Theorem C22_large_gas_refuted : exists m off,
  mm_paid m = C_mem (mm_words m) /\ 0 <= mm_gas m < 2 ^ 64 /\ is_word off /\
  evm_touch (mm_gas m) (mm_words m) off 32 = None /\
  exists m', build_ensure_memory m off 32 = Some (2 ^ 63 - 1, m').
Proof.
  exists (mkMem (2 ^ 60) 0 0), (2 ^ 64). split; [reflexivity|]. split; [vm_compute; split; congruence|].
  split; [vm_compute; split; congruence|]. split; [reflexivity|]. eexists. vm_compute. reflexivity.
Qed.
Print Assumptions C22_large_gas_refuted.

(** C23: for every list of charges the gas reported to the caller is the gas left if all charges fit;
    otherwise the frame fails, the reported gas never exceeds what it started with (the counter's
    wrapped value is never reported) and is zero when the failure is OutOfGas. *)
Theorem C23_reported_gas l g :
  0 <= g < U64 -> Forall (fun c => 0 <= amount c) l ->
  match pay g (map amount l) with
  | Some g' => reported (charges g l) = (g', Continue) /\ 0 <= g' <= g
  | None => exists g' e, reported (charges g l) = (g', e) /\ e <> Continue /\ 0 <= g' <= g /\ (e = OutOfGas -> g' = 0)
  end.
Proof. exact (charges_spec l g). Qed.
Print Assumptions C23_reported_gas.

(** The stored counter does wrap before the wrapper fixes it. *)
Example C23_ex : charges 10 [Inline 3; Builtin 4; Inline 5] = (2 ^ 64 - 2, OutOfGas) /\
  reported (charges 10 [Inline 3; Builtin 4; Inline 5]) = (0, OutOfGas) /\
  reported (charges 10 [Inline 3; BuiltinMem 8]) = (7, Fail) /\
  reported (charges 10 [Inline 3; Builtin 4]) = (3, Continue).
Proof. vm_compute. repeat split. Qed.
