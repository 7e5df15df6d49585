(** Model of the per-hardfork opcode table and of the reasons with which unavailable opcodes fail.

    Sources: crates/revmc-codegen/src/bytecode/info.rs; compiler/translate/mod.rs (translate_inst). *)
From Verif Require Export InstModel SectionsModel.
Open Scope Z_scope.

(** [SpecId] (revm, external; the variants and their order are those of cli/src/cmd/run.rs:373-425). *)
Inductive fork := FRONTIER | HOMESTEAD | TANGERINE | SPURIOUS_DRAGON | BYZANTIUM | PETERSBURG | ISTANBUL | BERLIN
  | LONDON | MERGE | SHANGHAI | CANCUN | PRAGUE | OSAKA | AMSTERDAM.
(** [spec_id as u8]. *)
Definition spec_u8 (f : fork) : Z :=
  match f with FRONTIER => 0 | HOMESTEAD => 1 | TANGERINE => 2 | SPURIOUS_DRAGON => 3 | BYZANTIUM => 4 | PETERSBURG => 5
  | ISTANBUL => 6 | BERLIN => 7 | LONDON => 8 | MERGE => 9 | SHANGHAI => 10 | CANCUN => 11 | PRAGUE => 12 | OSAKA => 13 | AMSTERDAM => 14 end.

(** [OpcodeInfo], info.rs:7-73: a u32 of flags and gas. *)
Definition I_UNKNOWN := 2 ^ 31.
Definition I_DYNAMIC := 2 ^ 30.
Definition I_DISABLED := 2 ^ 29.
Definition I_MASK := 0xFFFF.
Definition is_unknown (i : Z) : bool := i =? I_UNKNOWN.
Definition is_dynamic (i : Z) : bool := negb (Z.land i I_DYNAMIC =? 0).
Definition is_disabled (i : Z) : bool := negb (Z.land i I_DISABLED =? 0).
Definition base_gas (i : Z) : Z := Z.land i I_MASK.
Definition set_dynamic (i : Z) : Z := Z.lor i I_DYNAMIC.
Definition set_disabled (i : Z) : Z := Z.lor i I_DISABLED.

(** [DYNAMIC_WITH_BASE_GAS], info.rs:94-119. *)
Definition DYNAMIC_WITH_BASE_GAS : list Z :=
  [0x0a; 0x20; 0x31; 0x37; 0x39; 0x3b; 0x3c; 0x3e; 0x3f; 0x51; 0x52; 0x53; 0x5e; 0xa0; 0xa1; 0xa2; 0xa3; 0xa4; 0x54; 0xf1; 0xf2; 0xf4; 0xfa; 0xff].
(** [FULLY_DYNAMIC], info.rs:122: SSTORE, CREATE, CREATE2. *)
Definition FULLY_DYNAMIC : list Z := [0x55; 0xf0; 0xf5].
(** [SPEC_GATED_OPCODES], info.rs:125-150. *)
Definition SPEC_GATED_OPCODES : list (Z * fork) :=
  [(0x1b, PETERSBURG); (0x1c, PETERSBURG); (0x1d, PETERSBURG); (0x1e, OSAKA); (0x3d, BYZANTIUM); (0x3e, BYZANTIUM);
   (0x3f, PETERSBURG); (0x46, ISTANBUL); (0x47, ISTANBUL); (0x48, LONDON); (0x49, CANCUN); (0x4a, CANCUN);
   (0x5c, CANCUN); (0x5d, CANCUN); (0x5e, CANCUN); (0x5f, SHANGHAI); (0xf4, HOMESTEAD); (0xf5, PETERSBURG);
   (0xfa, BYZANTIUM); (0xfd, BYZANTIUM); (0xe6, AMSTERDAM); (0xe7, AMSTERDAM); (0xe8, AMSTERDAM); (0x4b, AMSTERDAM)].
(** [UNSUPPORTED_OPCODES], info.rs:153. *)
Definition UNSUPPORTED_OPCODES : list Z := [].
(** [contains], info.rs:155-164. *)
Definition contains (l : list Z) (x : Z) : bool := existsb (fun y => y =? x) l.

Definition put (m : Z -> Z) (op v : Z) : Z -> Z := fun o => if o =? op then v else m o.

(** The body of the first loop of [make_map], info.rs:171-211. [defined op] is [OpCode::new(op).is_some()],
    [table] is [gas_table_spec(spec_id)] (both revm, external); [None] = the assertion fails. *)
Definition map_step (defined : Z -> bool) (table : Z -> Z) (acc : option (Z -> Z)) (op : Z) : option (Z -> Z) :=
  match acc with
  | None => None
  | Some m =>
      if negb (defined op) then Some m
      else if contains UNSUPPORTED_OPCODES op then Some (put m op (set_disabled (m op)))
      else
        let fully := contains FULLY_DYNAMIC op in
        let with_base := contains DYNAMIC_WITH_BASE_GAS op in
        if negb fully && (I_MASK <? table op) then None
        else
          let gas := if fully then 0 else table op in
          Some (put m op (if fully || with_base then set_dynamic gas else gas))
  end.
(** The gating loop, info.rs:213-221. *)
Definition gate_step (spec : fork) (m : Z -> Z) (g : Z * fork) : Z -> Z :=
  let '(op, required) := g in if spec_u8 spec <? spec_u8 required then put m op (set_disabled (m op)) else m.
(** [make_map], info.rs:166-224. *)
Definition make_map (defined : Z -> bool) (table : Z -> Z) (spec : fork) : option (Z -> Z) :=
  match fold_left (map_step defined table) (map Z.of_nat (seq 0 256)) (Some (fun _ => I_UNKNOWN)) with
  | Some m => Some (fold_left (gate_step spec) SPEC_GATED_OPCODES m)
  | None => None
  end.
(** The table as [Bytecode::new] reads it. *)
Definition info_of (m : Z -> Z) (op : Z) : opinfo := mkInfo (is_unknown (m op)) (is_disabled (m op)) (base_gas (m op)).

(** ** Reasons. [translate_inst], translate/mod.rs:567-573: a DISABLED instruction fails with [NotActivated],
    an UNKNOWN one with [OpcodeNotFound], before the prologue; nothing else is generated for it. *)
Inductive reason := NotActivated | OpcodeNotFound.
Definition unavailable (d : idata) : option reason :=
  if f_disabled (d_flags d) then Some NotActivated else if f_unknown (d_flags d) then Some OpcodeNotFound else None.

Definition lift {X R} (r : mres X R) : mres X (R + reason) :=
  match r with MNext s => MNext s | MDone g r x => MDone g (inl r) x | MFail => MFail end.
(** The compiled machine with these failures kept apart from the others: gas left and state when failing. *)
Definition comp_step_r {X R} (sem : nat -> Z -> Z -> X -> outcome X R) istanbul extra (prog : list idata) (s : mstate X)
  : list (mstate X) * mres X (R + reason) :=
  match nth_error prog (m_i s) with
  | None => ([], MFail)
  | Some d =>
      match unavailable d with
      | Some r => ([], MDone (m_gas s) (inr r) (m_x s))
      | None => let '(o, r) := comp_step sem istanbul extra prog s in (o, lift r)
      end
  end.
