(** Which opcodes exist in which hardfork, by the EIPs that introduced them, and the EVM machine that tells
    failures by unavailable opcodes from the others. *)
From Verif Require Export SectionsSpec.
From Verif Require Import InfoModel.
Open Scope Z_scope.

(** Hardforks by their activation blocks on mainnet (Amsterdam is not scheduled; it is the last). *)
Definition activation (f : fork) : Z :=
  match f with
  | FRONTIER => 0 | HOMESTEAD => 1150000 | TANGERINE => 2463000 | SPURIOUS_DRAGON => 2675000 | BYZANTIUM => 4370000
  | PETERSBURG => 7280000 | ISTANBUL => 9069000 | BERLIN => 12244000 | LONDON => 12965000 | MERGE => 15537394
  | SHANGHAI => 17034870 | CANCUN => 19426587 | PRAGUE => 22431084 | OSAKA => 23935694 | AMSTERDAM => 2 ^ 64
  end.
(** The hardfork that introduced an opcode. *)
Definition introduced (op : Z) : fork :=
  if op =? 0xf4 then HOMESTEAD (* EIP-7 *)
  else if (op =? 0xfd) || (op =? 0x3d) || (op =? 0x3e) || (op =? 0xfa) then BYZANTIUM (* EIP-140, 211, 214 *)
  else if ((0x1b <=? op) && (op <=? 0x1d)) || (op =? 0xf5) || (op =? 0x3f) then PETERSBURG (* EIP-145, 1014, 1052 *)
  else if (op =? 0x46) || (op =? 0x47) then ISTANBUL (* EIP-1344, 1884 *)
  else if op =? 0x48 then LONDON (* EIP-3198 *)
  else if op =? 0x5f then SHANGHAI (* EIP-3855 *)
  else if (op =? 0x49) || (op =? 0x4a) || (op =? 0x5c) || (op =? 0x5d) || (op =? 0x5e) then CANCUN (* EIP-4844, 7516, 1153, 5656 *)
  else if op =? 0x1e then OSAKA (* EIP-7939 *)
  else if (op =? 0xe6) || (op =? 0xe7) || (op =? 0xe8) || (op =? 0x4b) then AMSTERDAM (* EIP-8024, 7843 *)
  else FRONTIER.

(** The EVM, instruction by instruction, with unavailable opcodes reported as such. *)
Definition ref_step_r {X R} (sem : nat -> Z -> Z -> X -> outcome X R) istanbul (prog : list idata) (s : mstate X)
  : list (mstate X) * mres X (R + reason) :=
  match nth_error prog (m_i s) with
  | None => ([], MFail)
  | Some d =>
      if f_disabled (d_flags d) then ([], MDone (m_gas s) (inr NotActivated) (m_x s))
      else if f_unknown (d_flags d) then ([], MDone (m_gas s) (inr OpcodeNotFound) (m_x s))
      else match ref_step sem istanbul prog s with
           | (o, MNext s') => (o, MNext s')
           | (o, MDone g r x) => (o, MDone g (inl r) x)
           | (o, MFail) => (o, MFail)
           end
  end.
