(** Model of the dispatch between interpreter and compiled programs: the runtime's [JitEvm]
    (revmc-runtime/src/revm_evm.rs), the generic [JitEvm] of revmc-context (jit_evm.rs) and
    [EvmCompilerFn::call_with_interpreter] (revmc-context/src/lib.rs:262-350). revm's part is in [RevmSpec]. *)
From Verif Require Export RevmSpec.

Section Evm.
  Context {rest gas finput finit fresult fdata host log ins tx txres : Type}.
  Notation interp := (@interp rest gas finput).
  Notation action := (@action gas finput).
  Notation frame := (@frame rest gas finput fdata).
  Notation world := (@world rest gas finput fdata host ins).
  Notation outcome := (@outcome finit fresult).
  Notation revm := (@revm rest gas finput finit fresult fdata host log ins tx txres).
  Notation call := (@call host ins tx).
  Variable R : revm.

  (** [EvmContext], lib.rs:84-128; [e_onlog]: whether [on_log] is set. The references into the interpreter
      ([memory], [input], stack, [next_action]) are fields of the context here, written back below. *)
  Record ecx := mkEcx { e_code : code; e_spec : Z; e_resume : nat; e_gas : gas; e_ret : list Z; e_action : option action; e_rest : rest; e_onlog : bool }.
  (** A compiled function: result, context afterwards, host afterwards, and the logs emitted (LOG calls [on_log], if set,
      with each of them). *)
  Definition func := ecx -> host -> ires * ecx * host * list log.

  (** LOG's use of [on_log], builtins/src/lib.rs:623-626. *)
  Definition see_logs (b : bool) (l : list log) (i : ins) : ins := if b then fold_left (fun i x => ins_log R x i) l i else i.

  (** [EvmContext::from_interpreter_with_stack], lib.rs:158-190. *)
  Definition from_interpreter (it : interp) : ecx :=
    mkEcx (i_code it) (i_spec it) (i_pc it) (i_gas it) (i_ret it) (i_action it) (i_rest it) false.
  Definition set_on_log (e : ecx) : ecx := mkEcx (e_code e) (e_spec e) (e_resume e) (e_gas e) (e_ret e) (e_action e) (e_rest e) true.
  (** [call_with_interpreter_inner], lib.rs:308-350. *)
  Definition call_with_interpreter (f : func) (configure : ecx -> ecx) (it : interp) (h : host) (i : ins) : action * interp * host * ins :=
    let I0 := mkInterp (i_code it) (i_spec it) (i_pc it) (i_gas it) (i_ret it) None (i_rest it) in
    let e := configure (from_interpreter I0) in
    let '(res, e1, h1, logs) := f e h in
    let i1 := see_logs (e_onlog e) logs i in
    let g := if is_oog res then spend_all R (e_gas e1) else e_gas e1 in
    let ret := match e_ret e1 with [] => [] | _ => i_ret I0 end in
    let I1 := mkInterp (i_code I0) (i_spec I0) (e_resume e1) g ret None (e_rest e1) in
    (match e_action e1 with Some a => a | None => Return (mkRes res [] g) end, I1, h1, i1).

  (** [process_next_action] followed by the [inspect] closure, revm_evm.rs:197-204 (the same text in jit_evm.rs:137-143): a frame that gave a result is finished. *)
  Definition process (d : fdata) (it : interp) (fs : list frame) (w : world) (h : host) (a : action) : world * outcome :=
    match a with
    | NewFrame x =>
        let '(n, r) := proc_new R d (i_rest it) x in
        (mkWorld (w_spec w) h (w_ins w) (mkFrame (after_child it r) d false :: fs), OItem n)
    | Return res =>
        match proc_return R d h res with
        | None => (mkWorld (w_spec w) h (w_ins w) (mkFrame it d false :: fs), OErr)
        | Some (r, h') => (mkWorld (w_spec w) h' (w_ins w) (mkFrame it d true :: fs), OResult r)
        end
    end.
  (** The end of [inspect_frame_run], revm_evm.rs:398-414, jit_evm.rs:277-296: self-destruct, action,
      end of the frame. *)
  Definition inspect_end (d : fdata) (it : interp) (fs : list frame) (w : world) (h : host) (i : ins) (a : action) : world * outcome :=
    let i1 := match a with Return res => if is_destruct (r_res res) then ins_destruct R h i else i | _ => i end in
    match a with
    | NewFrame x =>
        let '(n, r) := proc_new R d (i_rest it) x in
        (mkWorld (w_spec w) h i1 (mkFrame (after_child it r) d false :: fs), OItem n)
    | Return res =>
        match proc_return R d h res with
        | None => (mkWorld (w_spec w) h i1 (mkFrame it d false :: fs), OErr)
        | Some (r, h') => let '(r', i2) := ins_end R h' d r i1 in (mkWorld (w_spec w) h' i2 (mkFrame it d true :: fs), OResult r')
        end
    end.

  (** ** The runtime's [JitEvm]. *)
  (** [CompiledProgram] and [LookupDecision]. *)
  Record program := mkProgram { p_hash : Z; p_spec : Z; p_func : func }.
  Inductive decision := Compiled (p : program) | Interpret.
  (** [get_or_calculate_hash]. *)
  Variable hash : code -> Z.
  (** The backend: the answer to the [n]-th lookup (other threads change the backend in between). *)
  Variable lookup : nat -> Z -> Z -> code -> decision.

  (** [JitEvm], revm_evm.rs:37-47: [lookup_cache], [lookup_cache_spec_id]; [j_count]: lookups made so far. *)
  Record jit := mkJit { j_cache : list (Z * decision); j_spec : Z; j_count : nat }.
  Fixpoint cached (k : Z) (l : list (Z * decision)) : option decision :=
    match l with [] => None | (k', d) :: l' => if Z.eqb k' k then Some d else cached k l' end.
  (** [lookup_cache.entry(code_hash).or_insert_with(..)], 186-189, 360-363. *)
  Definition decide (j : jit) (spec : Z) (c : code) : jit * decision :=
    match cached (hash c) (j_cache j) with
    | Some d => (j, d)
    | None => let d := lookup (j_count j) (hash c) spec c in (mkJit ((hash c, d) :: j_cache j) (j_spec j) (S (j_count j)), d)
    end.
  (** [frame_run], 178-207. *)
  Definition frame_run (j : jit) (w : world) : jit * world * outcome :=
    match w_stack w with
    | [] => (j, w, OErr)
    | fr :: fs =>
        let '(j1, d) := decide j (w_spec w) (i_code (f_interp fr)) in
        match d with
        | Compiled p =>
            let '(a, it, h, i) := call_with_interpreter (p_func p) (fun e => e) (f_interp fr) (w_host w) (w_ins w) in
            let '(w', o) := process (f_data fr) it fs (mkWorld (w_spec w) (w_host w) i (w_stack w)) h a in (j1, w', o)
        | Interpret => let '(w', o) := inner_run R w in (j1, w', o)
        end
    end.
  (** [inspect_frame_run], 352-416. *)
  Definition inspect_frame_run (j : jit) (w : world) : jit * world * outcome :=
    match w_stack w with
    | [] => (j, w, OErr)
    | fr :: fs =>
        let '(j1, d) := decide j (w_spec w) (i_code (f_interp fr)) in
        match d with
        | Compiled p =>
            let '(a, it, h, i) := call_with_interpreter (p_func p) set_on_log (f_interp fr) (w_host w) (w_ins w) in
            let '(w', o) := inspect_end (f_data fr) it fs w h i a in (j1, w', o)
        | Interpret => let '(w', o) := inner_inspect_run R w in (j1, w', o)
        end
    end.
  (** [invalidate_cache], 104-112. *)
  Definition invalidate_cache (j : jit) (w : world) : jit :=
    if Z.eqb (w_spec w) (j_spec j) then j else mkJit [] (w_spec w) (j_count j).
  (** [JitEvm::new], 92-102. *)
  Definition new_jit (w : world) : jit := mkJit [] (w_spec w) 0.
  (** [set_backend], 75-79. *)
  Definition set_backend (j : jit) : jit := mkJit [] (j_spec j) (j_count j).

  (** [transact_one], 232-237; [replay], 250-256; [system_call_one_with_caller], 279-295; [inspect_one_tx], 434-440;
      [inspect_one_system_call_with_caller], 455-472. A transaction may take at most [fuel] frame runs here. *)
  Definition transact_one (fuel : nat) (t : tx) (j : jit) (w : world) :=
    let w := with_host w (set_tx R t (w_host w)) in let j := invalidate_cache j w in run R frame_run false false fuel j w.
  Definition replay (fuel : nat) (j : jit) (w : world) :=
    let j := invalidate_cache j w in run R frame_run false false fuel j w.
  Definition system_call (fuel : nat) (t : tx) (j : jit) (w : world) :=
    let w := with_host w (set_tx R t (w_host w)) in let j := invalidate_cache j w in run R frame_run false true fuel j w.
  Definition inspect_one_tx (fuel : nat) (t : tx) (j : jit) (w : world) :=
    let w := with_host w (set_tx R t (w_host w)) in let j := invalidate_cache j w in run R inspect_frame_run true false fuel j w.
  Definition inspect_system_call (fuel : nat) (t : tx) (j : jit) (w : world) :=
    let w := with_host w (set_tx R t (w_host w)) in let j := invalidate_cache j w in run R inspect_frame_run true true fuel j w.
  Definition perform (fuel : nat) (c : call) (j : jit) (w : world) : option (jit * world * option (option txres)) :=
    let answer x := match x with Some (j, w, r) => Some (j, w, Some r) | None => None end in
    match c with
    | CTransact t => answer (transact_one fuel t j w)
    | CReplay => answer (replay fuel j w)
    | CSystem t => answer (system_call fuel t j w)
    | CInspect t => answer (inspect_one_tx fuel t j w)
    | CInspectSystem t => answer (inspect_system_call fuel t j w)
    | CSpec s => Some (j, mkWorld s (w_host w) (w_ins w) (w_stack w), None)
    | CBackend => Some (set_backend j, w, None)
    | CInspector i => Some (j, mkWorld (w_spec w) (w_host w) i (w_stack w), None)
    | CHost f => Some (j, with_host w (f (w_host w)), None)
    end.
  (** A whole life; [None]: some transaction needs more than [fuel] frame runs. *)
  Fixpoint live (fuel : nat) (l : list call) (j : jit) (w : world) : option (jit * world * list (option (option txres))) :=
    match l with
    | [] => Some (j, w, [])
    | c :: l' =>
        match perform fuel c j w with
        | None => None
        | Some (j1, w1, r) => match live fuel l' j1 w1 with None => None | Some (j2, w2, rs) => Some (j2, w2, r :: rs) end
        end
    end.

  (** ** The [JitEvm] of revmc-context, jit_evm.rs: a table of functions by hash, and [on_miss] ([FnMut]: its answer to the
      [n]-th question). The state is the number of questions. *)
  Variable functions : Z -> option func.
  Variable on_miss : nat -> Z -> code -> option func.
  Definition pick (n : nat) (c : code) : nat * option func :=
    match functions (hash c) with Some f => (n, Some f) | None => (S n, on_miss n (hash c) c) end.
  (** [frame_run], 120-148. *)
  Definition frame_run_c (n : nat) (w : world) : nat * world * outcome :=
    match w_stack w with
    | [] => (n, w, OErr)
    | fr :: fs =>
        let '(n1, f) := pick n (i_code (f_interp fr)) in
        match f with
        | Some f =>
            let '(a, it, h, i) := call_with_interpreter f (fun e => e) (f_interp fr) (w_host w) (w_ins w) in
            let '(w', o) := process (f_data fr) it fs (mkWorld (w_spec w) (w_host w) i (w_stack w)) h a in (n1, w', o)
        | None => let '(w', o) := inner_run R w in (n1, w', o)
        end
    end.
  (** [inspect_frame_run], 233-297. *)
  Definition inspect_frame_run_c (n : nat) (w : world) : nat * world * outcome :=
    match w_stack w with
    | [] => (n, w, OErr)
    | fr :: fs =>
        let '(n1, f) := pick n (i_code (f_interp fr)) in
        match f with
        | Some f =>
            let '(a, it, h, i) := call_with_interpreter f set_on_log (f_interp fr) (w_host w) (w_ins w) in
            let '(w', o) := inspect_end (f_data fr) it fs w h i a in (n1, w', o)
        | None => let '(w', o) := inner_inspect_run R w in (n1, w', o)
        end
    end.
  (** [transact_one], 175-178, [inspect_one_tx], 317-320. *)
  Definition transact_c (fuel : nat) (insp : bool) (t : tx) (n : nat) (w : world) :=
    let w := with_host w (set_tx R t (w_host w)) in run R (if insp then inspect_frame_run_c else frame_run_c) insp false fuel n w.
End Evm.
