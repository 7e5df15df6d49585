(** revm's side of the dispatch: frames, the interpreter, and the loop over the frames of a transaction, as far as
    /repo's [JitEvm] takes part in it. None of this is code of /repo; the functions are parameters (a record), the loop is
    that of revm's [MainnetHandler]. It is the reference the [JitEvm]s are compared with.

    Simplified: an inspector sees logs, self-destructs, starts and ends of frames; its per-instruction hooks are left out
    (compiled code never calls them). *)
From Coq Require Export List ZArith Bool Lia.
Export ListNotations.
Notation code := (list Z).

(** [InstructionResult], as far as the code compares it. *)
Inductive ires := RStop | ROutOfGas | RSelfDestruct | ROther (n : Z).
Definition is_oog (r : ires) : bool := match r with ROutOfGas => true | _ => false end.
Definition is_destruct (r : ires) : bool := match r with RSelfDestruct => true | _ => false end.

Section Revm.
  (** [rest]: stack, memory, input and flags of an interpreter; [finput]: [FrameInput]; [finit]: [FrameInit];
      [fresult]: [FrameResult]; [fdata]: the fields of an [EthFrame] besides its interpreter; [host]: the context
      (journal, database, block, transaction); [ins]: the inspector. Code hashes and [SpecId]s are numbers. *)
  Context {rest gas finput finit fresult fdata host log ins tx txres : Type}.

  (** [InterpreterResult], [InterpreterAction]. *)
  Record iresult := mkRes { r_res : ires; r_out : list Z; r_gas : gas }.
  Inductive action := NewFrame (x : finput) | Return (r : iresult).
  (** [Interpreter]; [i_action]: [bytecode.action]. *)
  Record interp := mkInterp { i_code : code; i_spec : Z; i_pc : nat; i_gas : gas; i_ret : list Z; i_action : option action; i_rest : rest }.

  Record revm := mkRevm {
    (** [Gas::spend_all]. *)
    spend_all : gas -> gas;
    (** [Inspector::log]; [inspect_selfdestruct] (reads the last journal entry); [frame_end]. *)
    ins_log : log -> ins -> ins;
    ins_destruct : host -> ins -> ins;
    ins_end : host -> fdata -> fresult -> ins -> fresult * ins;
    (** [Interpreter::run_plain] (logs emitted on the way are listed). *)
    run_plain : interp -> host -> action * interp * host * list log;
    (** [EthFrame::process_next_action], for a new frame (gives the child part of the memory) and for a return
        ([None]: database error). *)
    proc_new : fdata -> rest -> finput -> finit * rest;
    proc_return : fdata -> host -> iresult -> option (fresult * host);
    (** [EthFrame::init_with_context] under the configured spec, with the inspector's part when inspecting.
        [None]: error, [inl]: a frame to run, [inr]: an immediate result (precompile, no balance, too deep). *)
    init_frame : bool -> Z -> finit -> host -> ins -> option ((code * gas * rest * fdata + fresult) * host * ins);
    (** [EthFrame::return_result]: what a child's result does to the parent's stack, memory, gas and return data. *)
    insert_result : fresult -> rest -> gas -> host -> option (rest * gas * list Z * host);
    (** [Handler::run] up to the first frame, and after the last; [fail]: [catch_error]. *)
    set_tx : tx -> host -> host;
    begin : bool -> bool -> Z -> host -> option (finit * host);
    finish : Z -> fresult -> host -> txres * host;
    fail : host -> host
  }.
  Variable R : revm.

  (** [EthFrame]; the EVM: configured spec, context, inspector and frame stack. *)
  Record frame := mkFrame { f_interp : interp; f_data : fdata; f_finished : bool }.
  Record world := mkWorld { w_spec : Z; w_host : host; w_ins : ins; w_stack : list frame }.
  Definition with_stack (w : world) (l : list frame) : world := mkWorld (w_spec w) (w_host w) (w_ins w) l.
  Definition with_host (w : world) (h : host) : world := mkWorld (w_spec w) h (w_ins w) (w_stack w).
  Definition after_child (it : interp) (r : rest) : interp := mkInterp (i_code it) (i_spec it) (i_pc it) (i_gas it) (i_ret it) (i_action it) r.

  (** [ItemOrResult], or an error. *)
  Inductive outcome := OItem (x : finit) | OResult (r : fresult) | OErr.

  (** [frame_run] of revm's own EVM. *)
  Definition inner_run (w : world) : world * outcome :=
    match w_stack w with
    | [] => (w, OErr)
    | fr :: fs =>
        let '(a, it, h, _) := run_plain R (f_interp fr) (w_host w) in
        let d := f_data fr in
        match a with
        | NewFrame x => let '(n, r) := proc_new R d (i_rest it) x in (mkWorld (w_spec w) h (w_ins w) (mkFrame (after_child it r) d false :: fs), OItem n)
        | Return res =>
            match proc_return R d h res with
            | None => (mkWorld (w_spec w) h (w_ins w) (mkFrame it d false :: fs), OErr)
            | Some (r, h') => (mkWorld (w_spec w) h' (w_ins w) (mkFrame it d true :: fs), OResult r)
            end
        end
    end.
  (** [inspect_frame_run] of revm's own EVM. *)
  Definition inner_inspect_run (w : world) : world * outcome :=
    match w_stack w with
    | [] => (w, OErr)
    | fr :: fs =>
        let '(a, it, h, l) := run_plain R (f_interp fr) (w_host w) in
        let d := f_data fr in
        let i := fold_left (fun i x => ins_log R x i) l (w_ins w) in
        match a with
        | NewFrame x => let '(n, r) := proc_new R d (i_rest it) x in (mkWorld (w_spec w) h i (mkFrame (after_child it r) d false :: fs), OItem n)
        | Return res =>
            let i1 := if is_destruct (r_res res) then ins_destruct R h i else i in
            match proc_return R d h res with
            | None => (mkWorld (w_spec w) h i1 (mkFrame it d false :: fs), OErr)
            | Some (r, h') => let '(r', i2) := ins_end R h' d r i1 in (mkWorld (w_spec w) h' i2 (mkFrame it d true :: fs), OResult r')
            end
        end
    end.
  (** revm: [frame_init] ([inspect_frame_init]) . *)
  Definition inner_init (insp : bool) (n : finit) (w : world) : world * option (option fresult) :=
    match init_frame R insp (w_spec w) n (w_host w) (w_ins w) with
    | None => (w, None)
    | Some (inl (c, g, r, d), h, i) => (mkWorld (w_spec w) h i (mkFrame (mkInterp c (w_spec w) 0 g [] None r) d false :: w_stack w), Some None)
    | Some (inr r, h, i) => (mkWorld (w_spec w) h i (w_stack w), Some (Some r))
    end.
  (** revm: [frame_return_result] of the inner EVM: a finished frame is dropped; the result goes to the
      frame below, or is the result of the transaction. *)
  Definition inner_return (r : fresult) (w : world) : world * option (option fresult) :=
    let st := match w_stack w with fr :: fs => if f_finished fr then fs else fr :: fs | [] => [] end in
    match st with
    | [] => (with_stack w [], Some (Some r))
    | fr :: fs =>
        let it := f_interp fr in
        match insert_result R r (i_rest it) (i_gas it) (w_host w) with
        | None => (with_stack w st, None)
        | Some (q, g, ret, h) =>
            (mkWorld (w_spec w) h (w_ins w) (mkFrame (mkInterp (i_code it) (i_spec it) (i_pc it) g ret (i_action it) q) (f_data fr) (f_finished fr) :: fs), Some None)
        end
    end.

  (** revm: [Handler::run_exec_loop], over any EVM whose [frame_run] is [step]. [None]: did not end within [fuel] runs. *)
  Fixpoint exec_loop {S : Type} (step : S -> world -> S * world * outcome) (insp : bool) (fuel : nat) (s : S) (w : world) : option (S * world * option fresult) :=
    match fuel with
    | O => None
    | Datatypes.S fuel' =>
        let '(s1, w1, o) := step s w in
        let give r w := match inner_return r w with
                        | (w', None) => Some (s1, w', None)
                        | (w', Some (Some r')) => Some (s1, w', Some r')
                        | (w', Some None) => exec_loop step insp fuel' s1 w'
                        end in
        match o with
        | OErr => Some (s1, w1, None)
        | OResult r => give r w1
        | OItem n => match inner_init insp n w1 with
                     | (w2, None) => Some (s1, w2, None)
                     | (w2, Some None) => exec_loop step insp fuel' s1 w2
                     | (w2, Some (Some r)) => give r w2
                     end
        end
    end.
  (** revm: [Handler::run], [inspect_run], [run_system_call], [inspect_run_system_call]. *)
  Definition run {S : Type} (step : S -> world -> S * world * outcome) (insp sys : bool) (fuel : nat) (s : S) (w : world) : option (S * world * option txres) :=
    let stop (x : option (S * world * option fresult)) :=
      match x with
      | None => None
      | Some (s, w, None) => Some (s, mkWorld (w_spec w) (fail R (w_host w)) (w_ins w) [], None)
      | Some (s, w, Some r) => let '(t, h) := finish R (w_spec w) r (w_host w) in Some (s, mkWorld (w_spec w) h (w_ins w) [], Some t)
      end in
    match begin R insp sys (w_spec w) (w_host w) with
    | None => stop (Some (s, w, None))
    | Some (n, h) =>
        match inner_init insp n (mkWorld (w_spec w) h (w_ins w) (w_stack w)) with
        | (w1, None) => stop (Some (s, w1, None))
        | (w1, Some (Some r)) => stop (Some (s, w1, Some r))
        | (w1, Some None) => stop (exec_loop step insp fuel s w1)
        end
    end.

  (** What the owner of an EVM can do: run a transaction or a system call, inspected or not, run the previous transaction
      again, change the configured spec, the [JitEvm]'s backend (nothing, here), the inspector, the context (commit, block). *)
  Inductive call :=
  | CTransact (t : tx) | CReplay | CSystem (t : tx) | CInspect (t : tx) | CInspectSystem (t : tx)
  | CSpec (s : Z) | CBackend | CInspector (i : ins) | CHost (f : host -> host).

  (** The same life led by revm's own EVM. *)
  Definition plain_step (insp : bool) (_ : unit) (w : world) : unit * world * outcome :=
    let '(w', o) := if insp then inner_inspect_run w else inner_run w in (tt, w', o).
  Definition plain_tx (fuel : nat) (insp sys : bool) (w : world) : option (world * option (option txres)) :=
    match run (plain_step insp) insp sys fuel tt w with Some (_, w', r) => Some (w', Some r) | None => None end.
  Definition plain_perform (fuel : nat) (c : call) (w : world) : option (world * option (option txres)) :=
    match c with
    | CTransact t => plain_tx fuel false false (with_host w (set_tx R t (w_host w)))
    | CReplay => plain_tx fuel false false w
    | CSystem t => plain_tx fuel false true (with_host w (set_tx R t (w_host w)))
    | CInspect t => plain_tx fuel true false (with_host w (set_tx R t (w_host w)))
    | CInspectSystem t => plain_tx fuel true true (with_host w (set_tx R t (w_host w)))
    | CSpec s => Some (mkWorld s (w_host w) (w_ins w) (w_stack w), None)
    | CBackend => Some (w, None)
    | CInspector i => Some (mkWorld (w_spec w) (w_host w) i (w_stack w), None)
    | CHost f => Some (with_host w (f (w_host w)), None)
    end.
  Fixpoint plain_live (fuel : nat) (l : list call) (w : world) : option (world * list (option (option txres))) :=
    match l with
    | [] => Some (w, [])
    | c :: l' =>
        match plain_perform fuel c w with
        | None => None
        | Some (w1, r) => match plain_live fuel l' w1 with None => None | Some (w2, rs) => Some (w2, r :: rs) end
        end
    end.
End Revm.
