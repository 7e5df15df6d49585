(** Model of the virtual stack and of the part of instruction translation that maintains it.

    Source: crates/revmc-codegen/src/compiler/translate/vstack.rs (VStack),
    crates/revmc-codegen/src/compiler/translate/mod.rs (FunctionCx: translate_inst and the stack
    helpers), crates/revmc-codegen/src/compiler/translate/peephole.rs.

    Simplifications, stated once:
    - An SSA value is modelled by the word it denotes. Code generation and the run of the generated
      code proceed in lockstep along one straight line of instructions: the compile-time decisions
      below never look at a run-time word, so running them together is the same as generating first.
    - [None] is a panic of code generation (failed [debug_assert!], [unwrap] on [None], slice index
      out of range), so "returns Some" is also "does not panic".
    - [i32]/[i8] offsets are unbounded integers; section sizes are at most 2^16, see C09.
    - The computation of an opcode on its operands is an opaque function of the rest of the machine
      state [W] (gas, memory, storage, world) and the operand list. *)
From Coq Require Import ZArith List Bool Lia.
Import ListNotations.
Open Scope Z_scope.

(** ** vstack.rs *)

(** [VSlot], vstack.rs:11-16. *)
Inductive vslot := Materialized | Virtual (v : Z).

(** [VStack], vstack.rs:25-34. *)
Record vstack := mkVs { v_base : Z; v_top : Z; v_slots : list (option vslot) }.

(** [VStack::reset], vstack.rs:51-62. *)
Definition vs_reset (inputs growth : nat) : vstack :=
  mkVs (- Z.of_nat inputs) 0 (repeat (Some Materialized) inputs ++ repeat None growth).

(** [VStack::offset_at_depth], vstack.rs:71-73. *)
Definition vs_offset_at_depth (v : vstack) (depth : nat) : Z := v_top v - 1 - Z.of_nat depth.

(** [VStack::idx], vstack.rs:75-88; [None] is the failing assertion (or the failing index). *)
Definition vs_idx (v : vstack) (off : Z) : option nat :=
  let i := off - v_base v in
  if (0 <=? i) && (i <? Z.of_nat (length (v_slots v))) then Some (Z.to_nat i) else None.

(** Writing one element of the slot vector. *)
Fixpoint upd {A} (l : list A) (n : nat) (x : A) : list A :=
  match l, n with
  | [], _ => []
  | _ :: tl, O => x :: tl
  | a :: tl, S k => a :: upd tl k x
  end.

(** The entry of the slot vector at an offset, [None] outside the vector or when unset. *)
Definition vs_slot (v : vstack) (off : Z) : option vslot :=
  match vs_idx v off with Some i => nth i (v_slots v) None | None => None end.

(** [VStack::get], vstack.rs:91-94 (the [unwrap] is the [None] of an unset slot). *)
Definition vs_get (v : vstack) (depth : nat) : option vslot := vs_slot v (vs_offset_at_depth v depth).

(** [VStack::get_at_offset], vstack.rs:98-104. *)
Definition vs_get_at_offset (v : vstack) (off : Z) : vslot :=
  match vs_slot v off with Some s => s | None => Materialized end.

(** [VStack::set_at_offset], vstack.rs:113-116. *)
Definition vs_set_at_offset (v : vstack) (off : Z) (x : Z) : option vstack :=
  match vs_idx v off with
  | Some i => Some (mkVs (v_base v) (v_top v) (upd (v_slots v) i (Some (Virtual x))))
  | None => None
  end.

(** [VStack::set], vstack.rs:107-110. *)
Definition vs_set (v : vstack) (depth : nat) (x : Z) : option vstack :=
  vs_set_at_offset v (vs_offset_at_depth v depth) x.

(** [VStack::push] and [VStack::push_mem], vstack.rs:119-131. *)
Definition vs_push_slot (v : vstack) (s : vslot) : option vstack :=
  match vs_idx v (v_top v) with
  | Some i => Some (mkVs (v_base v) (v_top v + 1) (upd (v_slots v) i (Some s)))
  | None => None
  end.
Definition vs_push (v : vstack) (x : Z) : option vstack := vs_push_slot v (Virtual x).
Definition vs_push_mem (v : vstack) : option vstack := vs_push_slot v Materialized.
(** [for _ in 0..delta { push_mem() }], mod.rs:1197 and 1270. *)
Fixpoint vs_push_mems (v : vstack) (n : nat) : option vstack :=
  match n with
  | O => Some v
  | S k => match vs_push_mem v with Some v' => vs_push_mems v' k | None => None end
  end.

(** [VStack::drop_top], vstack.rs:134-142. *)
Definition vs_drop_top (v : vstack) (n : nat) : option vstack :=
  let t := v_top v - Z.of_nat n in
  if v_base v <=? t then Some (mkVs (v_base v) t (v_slots v)) else None.

(** A Rust [Range<i32>]. *)
Definition zrange (a b : Z) : list Z := map (fun k => a + Z.of_nat k) (seq 0 (Z.to_nat (b - a))).

(** [VStack::pending_stores], vstack.rs:159-170. *)
Definition vs_pending (v : vstack) (a b : Z) : list (Z * Z) :=
  flat_map (fun off => match vs_slot v off with Some (Virtual x) => [(off, x)] | _ => [] end) (zrange a b).

(** [VStack::virtual_count], vstack.rs:150-152. *)
Definition vs_virtual_count (v : vstack) : nat := length (vs_pending v (v_base v) (v_top v)).

(** [VStack::mark_materialized_range], vstack.rs:175-188. *)
Definition vs_mark1 (v : vstack) (off : Z) : vstack :=
  match vs_idx v off, vs_slot v off with
  | Some i, Some _ => mkVs (v_base v) (v_top v) (upd (v_slots v) i (Some Materialized))
  | _, _ => v
  end.
Definition vs_mark (v : vstack) (a b : Z) : vstack := fold_left vs_mark1 (zrange a b) v.

(** ** FunctionCx *)

(** The fields of [FunctionCx] that describe the stack, mod.rs:95-140: the virtual stack, the stack
    memory (one word per absolute slot; the LLVM alloca or the caller's buffer), [section_start_len]
    (as the value it holds), [section_len_offset], [len_offset], the [stack_len] alloca, and
    [stored_len_offset]. [section_start_sp] is the address of slot [c_start]. *)
Record cx := mkCx {
  c_vs : vstack;
  c_mem : Z -> Z;
  c_start : Z;
  c_slo : Z;
  c_lo : Z;
  c_len : Z;
  c_stored : Z
}.
Definition with_vs (c : cx) (v : vstack) : cx :=
  mkCx v (c_mem c) (c_start c) (c_slo c) (c_lo c) (c_len c) (c_stored c).
Definition with_mem (c : cx) (m : Z -> Z) : cx :=
  mkCx (c_vs c) m (c_start c) (c_slo c) (c_lo c) (c_len c) (c_stored c).
Definition with_lo (c : cx) (l : Z) : cx :=
  mkCx (c_vs c) (c_mem c) (c_start c) (c_slo c) l (c_len c) (c_stored c).
Definition with_slo (c : cx) (s : Z) : cx :=
  mkCx (c_vs c) (c_mem c) (c_start c) s (c_lo c) (c_len c) (c_stored c).

(** A store to one stack slot. *)
Definition mset (m : Z -> Z) (p x : Z) : Z -> Z := fun q => if q =? p then x else m q.

(** [materialize_range], mod.rs:1650-1657. *)
Definition store_all (start : Z) (m : Z -> Z) (l : list (Z * Z)) : Z -> Z :=
  fold_left (fun m '(off, x) => mset m (start + off) x) l m.
Definition materialize_range (c : cx) (a b : Z) : cx :=
  with_vs (with_mem c (store_all (c_start c) (c_mem c) (vs_pending (c_vs c) a b))) (vs_mark (c_vs c) a b).

(** [materialize_live_stack], mod.rs:1619-1622. *)
Definition materialize_live (c : cx) : cx := materialize_range c (v_base (c_vs c)) (v_top (c_vs c)).

(** [relieve_vstack_pressure], mod.rs:1626-1647. *)
Definition HIGH_WATER : nat := 2.
Definition KEEP_HOT : Z := 2.
Definition relieve (c : cx) : cx :=
  let v := c_vs c in
  if v_top v - v_base v <=? Z.of_nat HIGH_WATER then c
  else if (vs_virtual_count v <=? HIGH_WATER)%nat then c
  else let cold_end := Z.max (v_top v - KEEP_HOT) (v_base v) in
       if v_base v <? cold_end then materialize_range c (v_base v) cold_end else c.

(** [push] and [pop_ignore], mod.rs:1296-1299 and 1317-1320. *)
Definition cx_push (c : cx) (x : Z) : option cx :=
  match vs_push (c_vs c) x with Some v => Some (with_lo (with_vs c v) (c_lo c + 1)) | None => None end.
Definition cx_pop_ignore (c : cx) (n : nat) : option cx :=
  match vs_drop_top (c_vs c) n with
  | Some v => Some (with_lo (with_vs c v) (c_lo c - Z.of_nat n))
  | None => None
  end.

(** [stack_value_at_depth], mod.rs:1596-1616; [cin] is [const_operand] of the instruction. *)
Definition value_at (cin : nat -> option Z) (c : cx) (operand_depth live_depth : nat) : option (Z * cx) :=
  match cin operand_depth with
  | Some k => Some (k, c)
  | None =>
    match vs_get (c_vs c) live_depth with
    | Some (Virtual x) => Some (x, c)
    | Some Materialized =>
      let x := c_mem c (c_start c + vs_offset_at_depth (c_vs c) live_depth) in
      match vs_set (c_vs c) live_depth x with Some v => Some (x, with_vs c v) | None => None end
    | None => None
    end
  end.

(** [popn], mod.rs:1328-1339: the closure runs for [i = 0 .. N-1], then the inputs are dropped. *)
Fixpoint read_operands (cin : nat -> option Z) (base n i : nat) (c : cx) : option (list Z * cx) :=
  match n with
  | O => Some ([], c)
  | S k =>
    match value_at cin c (base + i) i with
    | Some (x, c1) =>
      match read_operands cin base k (S i) c1 with
      | Some (xs, c2) => Some (x :: xs, c2)
      | None => None
      end
    | None => None
    end
  end.
Definition cx_popn (cin : nat -> option Z) (n : nat) (c : cx) : option (list Z * cx) :=
  match read_operands cin (Z.to_nat (- c_lo c)) n 0 c with
  | Some (xs, c1) => match cx_pop_ignore c1 n with Some c2 => Some (xs, c2) | None => None end
  | None => None
  end.

(** [dup], mod.rs:1343-1348. *)
Definition cx_dup (cin : nat -> option Z) (n : nat) (c : cx) : option cx :=
  match n with
  | O => None
  | S k => match value_at cin c k k with Some (x, c1) => cx_push c1 x | None => None end
  end.

(** [exchange], mod.rs:1359-1365; [swap n] is [exchange 0 n], mod.rs:1352-1354. *)
Definition cx_exchange (cin : nat -> option Z) (n m : nat) (c : cx) : option cx :=
  match m with
  | O => None
  | _ =>
    match value_at cin c n n with
    | Some (a, c1) =>
      match value_at cin c1 (n + m) (n + m) with
      | Some (b, c2) =>
        match vs_set (c_vs c2) n b with
        | Some v1 => match vs_set v1 (n + m) a with Some v2 => Some (with_vs c2 v2) | None => None end
        | None => None
        end
      | None => None
      end
    | None => None
    end
  end.

(** [write_const_operands], mod.rs:1553-1567. *)
Definition write_const_operand (cin : nat -> option Z) (inputs : nat) (c : cx) (depth : nat) : cx :=
  let off := c_slo c - Z.of_nat inputs + Z.of_nat (inputs - 1 - depth) in
  match vs_get_at_offset (c_vs c) off, cin depth with
  | Materialized, Some k => with_mem c (mset (c_mem c) (c_start c + off) k)
  | _, _ => c
  end.
Definition write_const_operands (cin : nat -> option Z) (inputs : nat) (c : cx) : cx :=
  fold_left (write_const_operand cin inputs) (seq 0 inputs) c.

(** [sp_after_inputs], mod.rs:1523-1534, up to the returned pointer, which is slot [slo - inputs]. *)
Definition sp_after_inputs (cin : nat -> option Z) (inputs outputs : nat) (c : cx) : cx :=
  let start := c_slo c - Z.of_nat inputs in
  let window := Z.of_nat (Nat.max inputs outputs) in
  write_const_operands cin inputs (materialize_range c start (start + window)).

(** [sp_after_inputs_with], mod.rs:1539-1549. *)
Definition sp_after_inputs_with (cin : nat -> option Z) (inputs : nat) (depths : list nat) (c : cx) : cx :=
  write_const_operands cin inputs
    (fold_left (fun c depth =>
       let off := c_slo c - Z.of_nat inputs + Z.of_nat (inputs - 1 - depth) in
       materialize_range c off (off + 1)) depths c).

(** The operands a builtin finds at [sp_from_top(inputs)], in pop order: index 0 is the top of the
    stack (builtins index the slots upwards from [sp]; revmc-builtins/src/lib.rs). *)
Definition mem_operands (c : cx) (inputs : nat) : list Z :=
  map (fun d => c_mem c (c_start c + c_slo c - 1 - Z.of_nat d)) (seq 0 inputs).
(** The results a builtin writes from slot [off] upwards; [outs] has the new top of the stack first,
    so its last element goes to [off]. *)
Definition mem_results (c : cx) (off : Z) (outs : list Z) : cx :=
  with_mem c (fst (fold_left (fun '(m, p) x => (mset m p x, p + 1)) (rev outs) (c_mem c, c_start c + off))).

(** [sync_noop_diff], mod.rs:1179-1202; [cout] is [const_output] of the instruction. *)
Definition sync_noop_diff (cout : option Z) (diff : Z) (c : cx) : option cx :=
  let expected := c_slo c + diff in
  let current := v_top (c_vs c) in
  if current =? expected then Some c
  else
    let delta := expected - current in
    let r := if delta <? 0 then vs_drop_top (c_vs c) (Z.to_nat (- delta))
             else match (if delta =? 1 then cout else None) with
                  | Some k => vs_push (c_vs c) k
                  | None => vs_push_mems (c_vs c) (Z.to_nat delta)
                  end in
    match r with Some v => Some (with_vs c v) | None => None end.

(** [sync_virtual_stack_diff], mod.rs:1212-1293 (the panic at 1219-1263 and the final assertion are
    [None]). *)
Definition sync_virtual_stack_diff (outputs : nat) (diff : Z) (c : cx) : option cx :=
  let expected := c_slo c + diff in
  let current := v_top (c_vs c) in
  if current =? expected then Some c
  else
    let delta := expected - current in
    if expected <? v_base (c_vs c) then None
    else
      match (if delta <? 0 then vs_drop_top (c_vs c) (Z.to_nat (- delta))
             else vs_push_mems (c_vs c) (Z.to_nat delta)) with
      | Some v =>
        let v' := if (0 <? outputs)%nat then vs_mark v (expected - Z.of_nat outputs) expected else v in
        if v_top v' =? expected then Some (with_vs c v') else None
      | None => None
      end.

(** The section-head part of translate_inst, mod.rs:584-594. *)
Definition enter_section (inputs growth : nat) (c : cx) : cx :=
  mkCx (vs_reset inputs growth) (c_mem c) (c_len c) 0 (c_lo c) (c_len c) 0.

(** The stack length store of translate_inst, mod.rs:617-622. *)
Definition store_len (diff : Z) (c : cx) : cx :=
  let n := c_slo c + diff in
  if n =? c_stored c then c
  else mkCx (c_vs c) (c_mem c) (c_start c) (c_slo c) (c_lo c) (c_start c + c_slo c + diff) n.

(** The flush at the end of an instruction, mod.rs:545-552; [next_head] says that the instruction
    control continues at is a live stack section head. *)
Definition leave (next_head : bool) (c : cx) : cx := if next_head then materialize_live c else relieve c.

Section Insts.
Context {W : Type}.

(** ** What an instruction means, and which code translate_inst emits for it *)

(** The EVM meaning of an instruction on the stack. A computation takes the operands in pop order and
    returns the new machine state and the results (new top first), or [None] when control leaves the
    function. A call or create hands the whole remaining stack to the caller, which re-enters the
    function with a stack of its own making (mod.rs:412-419, 384-391). *)
Inductive evm_op :=
| EOp (sem : W -> list Z -> W * option (list Z))
| EDup (n : nat)
| ESwap (i j : nat)
| ECall (sem : W -> list Z -> list Z -> W * option (list Z)).

(** The arms of translate_inst (mod.rs:666-1167) and try_peephole (peephole.rs:24-43), by what they do
    to the stack. *)
Inductive body :=
| BHalt                         (* STOP, INVALID, DISABLED, UNKNOWN, undecodable immediate *)
| BNop                          (* JUMPDEST *)
| BInline (n : nat) (o : bool)  (* popn::<n>, compute, push if [o]: ADD, LT, MLOAD, MSTORE, PC, GAS, .. *)
| BPop                          (* POP: pop_ignore(1) *)
| BDup (n : nat)                (* DUPn, DUPN *)
| BExchange (n m : nat)         (* SWAPn and SWAPN as (0, n), EXCHANGE as (n, m - n) *)
| BBuiltin                      (* sp_after_inputs and a builtin: DIV, KECCAK256, SLOAD, LOGn, .. *)
| BBuiltinTop                   (* sp_at_top and a builtin: ORIGIN, TIMESTAMP, .. *)
| BFold (k : Z)                 (* fold_const, mod.rs:1310-1314 *)
| BExpGas (pay : W -> Z -> W * bool) (r : list Z -> Z) (reads : bool)
                                (* pay_exp_dynamic_gas, then popn and push, or fold_const *)
| BLoadC (k : Z)                (* peephole_load *)
| BKeccakC (off len : Z)        (* peephole_keccak256 *)
| BReturnC (off len : Z)        (* peephole_return *)
| BReturn                       (* RETURN, REVERT, SELFDESTRUCT *)
| BJump (read_target : bool) (cond : option bool)
                                (* JUMP, JUMPI; [cond = Some true] reads the condition *)
| BCall.                        (* CALL family, CREATE family *)

(** The instruction as translate_inst sees it: [InstData] and the queries [const_operand],
    [const_output]. [vi_fact] is what the analysis promises about the operands (the snapshot
    constants, the resolved jump target); it does not influence the translation. *)
Record vinst := mkVi {
  vi_evm : evm_op;
  vi_body : body;
  vi_in : nat;
  vi_out : nat;
  vi_noop : bool;
  vi_head : option (nat * nat);
  vi_cin : nat -> option Z;
  vi_cout : option Z;
  vi_fact : list Z -> Prop
}.

Definition suspends (i : vinst) : bool := match vi_body i with BCall => true | _ => false end.

(** [effective_stack_diff], mod.rs:2132-2139. *)
Definition vi_diff (i : vinst) : Z :=
  Z.of_nat (vi_out i) - Z.of_nat (vi_in i) - (if suspends i then 1 else 0).

(** The computation a body performs: the opcode's, applied to the operands it has read. *)
Definition sem_of (i : vinst) : W -> list Z -> W * option (list Z) :=
  match vi_evm i with EOp f => f | _ => fun w _ => (w, Some []) end.

Inductive res := RHalt (w : W) | RNext (w : W) (c : cx).

(** End of an inline arm: push the result, if any. *)
Definition push_all (c : cx) (outs : list Z) : option cx :=
  fold_left (fun oc x => match oc with Some c => cx_push c x | None => None end) (rev outs) (Some c).

(** One pop of a jump operand. *)
Definition jump_pop (i : vinst) (read : bool) (c : cx) : option (Z * cx) :=
  if read then match cx_popn (vi_cin i) 1 c with Some ([x], c') => Some (x, c') | _ => None end
  else match cx_pop_ignore c 1 with Some c' => Some (0, c') | None => None end.

(** The arms that fall into the common end of translate_inst (mod.rs:646-654, 1169-1171): the state
    when the arm is done, before [sync_virtual_stack_diff]. *)
Definition run_arm (i : vinst) (w : W) (c : cx) : option res :=
  match vi_body i with
  | BNop => let '(w', r) := sem_of i w [] in
            match r with Some _ => Some (RNext w' c) | None => Some (RHalt w') end
  | BInline n o =>
    match (match n with O => Some ([], c) | _ => cx_popn (vi_cin i) n c end) with
    | Some (args, c1) =>
      match sem_of i w args with
      | (w', Some outs) => match push_all c1 (if o then outs else []) with
                           | Some c2 => Some (RNext w' c2) | None => None end
      | (w', None) => Some (RHalt w')
      end
    | None => None
    end
  | BPop => match cx_pop_ignore c 1 with Some c1 => Some (RNext w c1) | None => None end
  | BDup n => match cx_dup (vi_cin i) n c with Some c1 => Some (RNext w c1) | None => None end
  | BExchange n m => match cx_exchange (vi_cin i) n m c with Some c1 => Some (RNext w c1) | None => None end
  | BBuiltin =>
    let c1 := sp_after_inputs (vi_cin i) (vi_in i) (vi_out i) c in
    match sem_of i w (mem_operands c1 (vi_in i)) with
    | (w', Some outs) => Some (RNext w' (mem_results c1 (c_slo c1 - Z.of_nat (vi_in i)) outs))
    | (w', None) => Some (RHalt w')
    end
  | BBuiltinTop =>
    match sem_of i w [] with
    | (w', Some outs) => Some (RNext w' (mem_results c (c_slo c) outs))
    | (w', None) => Some (RHalt w')
    end
  | BFold k =>
    match cx_pop_ignore c (vi_in i) with
    | Some c1 => match cx_push c1 k with Some c2 => Some (RNext w c2) | None => None end
    | None => None
    end
  | BExpGas pay r reads =>
    let c1 := sp_after_inputs_with (vi_cin i) (vi_in i) [1%nat] c in
    match pay w (c_mem c1 (c_start c1 + c_slo c1 - Z.of_nat (vi_in i))) with
    | (w', false) => Some (RHalt w')
    | (w', true) =>
      if reads then
        match cx_popn (vi_cin i) 2 c1 with
        | Some (args, c2) => match cx_push c2 (r args) with Some c3 => Some (RNext w' c3) | None => None end
        | None => None
        end
      else
        match cx_pop_ignore c1 (vi_in i) with
        | Some c2 => match cx_push c2 (r []) with Some c3 => Some (RNext w' c3) | None => None end
        | None => None
        end
    end
  | BLoadC k =>
    match sem_of i w [k] with
    | (w', Some outs) =>
      let c1 := mem_results c (c_slo c - 1) outs in
      let x := c_mem c1 (c_start c1 + c_slo c1 - 1) in
      match vs_set_at_offset (c_vs c1) (c_slo c1 - 1) x with
      | Some v => Some (RNext w' (with_vs c1 v))
      | None => None
      end
    | (w', None) => Some (RHalt w')
    end
  | BKeccakC off len =>
    let c1 := sp_after_inputs_with (vi_cin i) (vi_in i) [] c in
    match sem_of i w [off; len] with
    | (w', Some outs) => Some (RNext w' (mem_results c1 (c_slo c1 - Z.of_nat (vi_in i)) outs))
    | (w', None) => Some (RHalt w')
    end
  | _ => None
  end.

(** The arms that end with [goto_return!(no_branch)], [build] or [fail]: what follows them is another
    section or nothing. *)
Definition run_exit (i : vinst) (w : W) (c : cx) : option res :=
  match vi_body i with
  | BHalt => Some (RHalt (fst (sem_of i w [])))
  | BReturnC off len =>
    match cx_pop_ignore c 2 with Some _ => Some (RHalt (fst (sem_of i w [off; len]))) | None => None end
  | BReturn =>
    let c1 := sp_after_inputs (vi_cin i) (vi_in i) (vi_out i) c in
    let args := mem_operands c1 (vi_in i) in
    match sync_virtual_stack_diff (vi_out i) (vi_diff i) c1 with
    | Some _ => Some (RHalt (fst (sem_of i w args)))
    | None => None
    end
  | BJump read cond =>
    match jump_pop i read c with
    | Some (t, c1) =>
      match cond with
      | None => let c2 := materialize_live c1 in
                match sem_of i w [t] with
                | (w', Some _) => Some (RNext w' (with_slo c2 (c_slo c2 + vi_diff i)))
                | (w', None) => Some (RHalt w')
                end
      | Some rc =>
        match jump_pop i rc c1 with
        | Some (b, c2) =>
          let c3 := materialize_live c2 in
          match sem_of i w [t; b] with
          | (w', Some _) => Some (RNext w' (with_slo c3 (c_slo c3 + vi_diff i)))
          | (w', None) => Some (RHalt w')
          end
        | None => None
        end
      end
    | None => None
    end
  | BCall =>
    (* call_common / create_common mod.rs:1389-1402; suspend mod.rs:1405-1421; the suspend block
       copies [stack_len] words out, mod.rs:412-419, and the resume block copies the caller's stack
       in, mod.rs:384-387. The stack list has the top first. *)
    let c1 := sp_after_inputs (vi_cin i) (vi_in i) (vi_out i) c in
    let args := mem_operands c1 (vi_in i) in
    let c2 := materialize_live c1 in
    let stack := rev (map (c_mem c2) (zrange 0 (c_len c2))) in
    match (match vi_evm i with ECall f => f | _ => fun w _ _ => (w, None) end) w args stack with
    | (w', Some st) =>
      let m := fst (fold_left (fun '(m, p) x => (mset m p x, p + 1)) (rev st) (c_mem c2, 0)) in
      let n := Z.of_nat (length st) in
      Some (RNext w' (mkCx (c_vs c2) m (c_start c2) (n - c_start c2) (c_lo c2) n (n - c_start c2)))
    | (w', None) => Some (RHalt w')
    end
  | _ => None
  end.

(** [BHalt]-like exits happen in two places in translate_inst; both read nothing from the stack. *)
Definition is_exit (b : body) : bool :=
  match b with BHalt | BReturnC _ _ | BReturn | BJump _ _ | BCall => true | _ => false end.

(** [translate_inst], mod.rs:501-1172. *)
Definition vstep (i : vinst) (next_head : bool) (w : W) (c : cx) : option res :=
  let c := with_lo (match vi_head i with Some (inputs, growth) => enter_section inputs growth c | None => c end) 0 in
  let diff := vi_diff i in
  if vi_noop i then
    match sync_noop_diff (vi_cout i) diff c with
    | Some c1 => Some (RNext w (leave next_head (with_slo c1 (c_slo c1 + diff))))
    | None => None
    end
  else
    let c := store_len diff c in
    match (if (1 <=? vi_out i)%nat then vi_cout i else None) with
    | Some k =>
      if ((vi_out i =? 1) || (vi_out i =? vi_in i + 1))%nat then
        match cx_pop_ignore c (vi_in i + 1 - vi_out i) with
        | Some c1 =>
          match cx_push c1 k with
          | Some c2 => Some (RNext w (leave next_head (with_slo c2 (c_slo c2 + diff))))
          | None => None
          end
        | None => None
        end
      else None
    | None =>
      if is_exit (vi_body i) then run_exit i w c
      else
        match run_arm i w c with
        | Some (RNext w' c1) =>
          match sync_virtual_stack_diff (vi_out i) diff c1 with
          | Some c2 => Some (RNext w' (leave next_head (with_slo c2 (c_slo c2 + diff))))
          | None => None
          end
        | r => r
        end
    end.

Definition is_head (i : vinst) : bool := match vi_head i with Some _ => true | None => false end.

(** Translating (and running) a line of instructions; [nh] says whether what follows it is a head. *)
Fixpoint vrun (l : list vinst) (nh : bool) (w : W) (c : cx) : option res :=
  match l with
  | [] => Some (RNext w c)
  | i :: tl =>
    match vstep i (match tl with j :: _ => is_head j | [] => nh end) w c with
    | Some (RNext w' c') => vrun tl nh w' c'
    | r => r
    end
  end.

End Insts.
Arguments evm_op : clear implicits.
Arguments body : clear implicits.
Arguments vinst : clear implicits.
Arguments res : clear implicits.
