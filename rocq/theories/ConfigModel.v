(** Model of the configuration's way into the compiler: directly (worker.rs:355-371, 415-541) and through the messages to
    the out-of-process helper (out_of_process.rs:183-264, 500-580, 668-760, 811-893).

    Simplified: wincode's bytes are left out (a message arrives as sent); strings, paths and hashes are values of
    arbitrary types; configuration fields that neither end looks at when compiling are one field [c_rest]. *)
From Coq Require Export List ZArith Bool Lia.
Export ListNotations.

(** [OptimizationLevel]. *)
Inductive opt := ONone | OLess | ODefault | OAggressive.
(** [opt_level_to_u8], [opt_level_from_u8], out_of_process.rs:811-829. *)
Definition opt_to_u8 (o : opt) : Z := match o with ONone => 0 | OLess => 1 | ODefault => 2 | OAggressive => 3 end.
Definition opt_from_u8 (z : Z) : option opt :=
  if Z.eqb z 0 then Some ONone else if Z.eqb z 1 then Some OLess else if Z.eqb z 2 then Some ODefault else if Z.eqb z 3 then Some OAggressive else None.

(** [GasParams]: a table of 256 prices ([Arc<[u64; 256]>]); [get]. *)
Definition gas_table := list Z.
Definition gas_get (t : gas_table) (id : nat) : Z := nth id t 0%Z.
(** out_of_process.rs:39. *)
Definition GAS_PARAM_COUNT : nat := 256.
(** [gas_params_to_pairs], out_of_process.rs:834-841. *)
Definition gas_to_pairs (t : gas_table) : list (nat * Z) := map (fun i => (i, gas_get t i)) (seq 0 GAS_PARAM_COUNT).
(** The body of the loop and the loop of [gas_params_from_pairs], 848-857; [None]: duplicate id. *)
Definition put {A} (l : list A) (i : nat) (v : A) : list A := firstn i l ++ v :: skipn (S i) l.
Fixpoint fill (pairs : list (nat * Z)) (table : list Z) (seen : list bool) : option (list Z * list bool) :=
  match pairs with
  | [] => Some (table, seen)
  | (id, v) :: ps => if nth id seen false then None else fill ps (put table id v) (put seen id true)
  end.
(** [gas_params_from_pairs], 843-863. *)
Definition gas_from_pairs (pairs : list (nat * Z)) : option gas_table :=
  if negb (length pairs =? GAS_PARAM_COUNT)%nat then None
  else match fill pairs (repeat 0%Z GAS_PARAM_COUNT) (repeat false GAS_PARAM_COUNT) with
       | None => None
       | Some (table, seen) => if existsb negb seen then None else Some table
       end.

Section Config.
  (** Paths, strings, specs, and the remaining configuration; [lossy]: [to_string_lossy] followed by [PathBuf::from]. *)
  Context {path str spec rest : Type}.
  Variable lossy : path -> path.
  Variable spec_to_u8 : spec -> Z.
  Variable spec_from_u8 : Z -> option spec.

  (** [RuntimeConfig] with the tuning fields looked at here, config.rs:17-110, 230-340. *)
  Record config := mkConfig {
    c_dump : option path; c_debug : bool; c_single : bool; c_no_dedup : bool; c_no_dse : bool; c_gas : option gas_table;
    c_workers : nat; c_recycle : nat; c_jit_opt : opt; c_aot_opt : opt; c_rest : rest
  }.
  (** [RuntimeConfig::default()]; its values do not matter below. *)
  Variable default : config.

  (** [HelperInit], out_of_process.rs:500-510. *)
  Record init := mkInit {
    i_debug : bool; i_single : bool; i_no_dedup : bool; i_no_dse : bool; i_dump : option path; i_gas : option (list (nat * Z));
    i_workers : nat; i_recycle : nat
  }.
  (** [helper_init], 865-876. *)
  Definition helper_init (c : config) : init :=
    mkInit (c_debug c) (c_single c) (c_no_dedup c) (c_no_dse c) (option_map lossy (c_dump c)) (option_map gas_to_pairs (c_gas c)) (c_workers c) (c_recycle c).
  (** [runtime_config_from_init], 878-891. *)
  Definition config_from_init (i : init) : option config :=
    match match i_gas i with None => Some None | Some ps => match gas_from_pairs ps with None => None | Some t => Some (Some t) end end with
    | None => None
    | Some gas => Some (mkConfig (i_dump i) (i_debug i) (i_single i) (i_no_dedup i) (i_no_dse i) gas (i_workers i) (i_recycle i) (c_jit_opt default) (c_aot_opt default) (c_rest default))
    end.

  (** [CompileJob] as far as compilation looks at it, and [CompilerTarget]. *)
  Inductive kind := KJit | KAot.
  Record job := mkJob { j_kind : kind; j_hash : str; j_spec : spec; j_code : list Z; j_symbol : str; j_opt : opt }.
  Inductive target := TJit | TJitObject | TAot.
  (** worker.rs:410-412. *)
  Definition is_aot_backend (t : target) : bool := match t with TJit => false | _ => true end.

  (** The options of an [EvmCompiler] that the runtime sets: backend and [FcxConfig] fields, gas table, passes, dump
      directory ([o_info]: the [debug] and [comments] fields; [o_frame]: [frame_pointers]), compiler/mod.rs:84-110, translate/mod.rs:25-50. *)
  Record options := mkOpts { o_aot : bool; o_opt : opt; o_debug : bool; o_single : bool; o_dedup : bool; o_dse : bool; o_gas : option gas_table; o_dump : option (path * spec * str); o_info : bool; o_frame : bool }.
  (** [cfg!(debug_assertions)] and [frame_pointers] of the build (parent and helper are the same executable). *)
  Variable build_debug build_frame : bool.
  (** [EvmCompiler::new], compiler/mod.rs:124-141, translate/mod.rs:37-50. *)
  Definition new_compiler (aot : bool) : options := mkOpts aot ODefault build_debug true true true None None false build_frame.
  (** The setters, compiler/mod.rs:241-268, 428-440. *)
  Definition set_opt_level (k : options) v := mkOpts (o_aot k) v (o_debug k) (o_single k) (o_dedup k) (o_dse k) (o_gas k) (o_dump k) (o_info k) (o_frame k).
  Definition debug_assertions (k : options) v := mkOpts (o_aot k) (o_opt k) v (o_single k) (o_dedup k) (o_dse k) (o_gas k) (o_dump k) (o_info k) (o_frame k).
  Definition single_error (k : options) v := mkOpts (o_aot k) (o_opt k) (o_debug k) v (o_dedup k) (o_dse k) (o_gas k) (o_dump k) (o_info k) (o_frame k).
  Definition set_dedup (k : options) v := mkOpts (o_aot k) (o_opt k) (o_debug k) (o_single k) v (o_dse k) (o_gas k) (o_dump k) (o_info k) (o_frame k).
  Definition set_dse (k : options) v := mkOpts (o_aot k) (o_opt k) (o_debug k) (o_single k) (o_dedup k) v (o_gas k) (o_dump k) (o_info k) (o_frame k).
  Definition set_gas_params (k : options) v := mkOpts (o_aot k) (o_opt k) (o_debug k) (o_single k) (o_dedup k) (o_dse k) (Some v) (o_dump k) (o_info k) (o_frame k).
  (** [set_dump_to], compiler/mod.rs:203-211. *)
  Definition is_some {A} (o : option A) : bool := match o with Some _ => true | None => false end.
  Definition set_dump_to (k : options) v := mkOpts (o_aot k) (o_opt k) (o_debug k) (o_single k) (o_dedup k) (o_dse k) (o_gas k) v (is_some v) (if is_some v then true else o_frame k).
  (** [create_compiler], worker.rs:523-541 (creation of the LLVM backend may fail: the caller's [bool]). *)
  Definition create_compiler (c : config) (aot : bool) : options :=
    let k := new_compiler aot in
    let k := set_opt_level k (if aot then c_aot_opt c else c_jit_opt c) in
    let k := debug_assertions k (c_debug c) in
    let k := single_error k (c_single c) in
    let k := set_dedup k (negb (c_no_dedup c)) in
    let k := set_dse k (negb (c_no_dse c)) in
    match c_gas c with Some t => set_gas_params k t | None => k end.

  (** What one compilation was done with. *)
  Record compilation := mkComp { m_opts : options; m_spec : spec; m_code : list Z; m_symbol : str }.
  (** [CompilerState]: the compiler and [compilations_since_recycle]. *)
  Definition slot := option (options * nat).
  (** [compile_with_state], worker.rs:415-497. [ok1], [ok2]: whether creating a compiler succeeds, first and when recycling. *)
  Definition compile_with_state (c : config) (t : target) (s : slot) (j : job) (ok1 ok2 : bool) : slot * option compilation :=
    match match s with Some st => Some st | None => if ok1 then Some (create_compiler c (is_aot_backend t), 0%nat) else None end with
    | None => (None, None)
    | Some (k, n) =>
        let k1 := match j_kind j, c_dump c with KJit, Some base => set_dump_to k (Some (base, j_spec j, j_hash j)) | _, _ => k end in
        let k2 := set_opt_level k1 (j_opt j) in
        let n1 := S n in
        let s' := if (0 <? c_recycle c)%nat && (c_recycle c <=? n1)%nat
                  then if ok2 then Some (create_compiler c (is_aot_backend t), 0%nat) else Some (k2, 0%nat)
                  else Some (k2, n1) in
        (s', Some (mkComp k2 (j_spec j) (j_code j) (j_symbol j)))
    end.
  (** The jobs of one thread of the helper (its thread-local compiler starts out empty). *)
  Fixpoint thread (c : config) (t : target) (s : slot) (l : list (job * (bool * bool))) : list (option compilation) :=
    match l with
    | [] => []
    | (j, (ok1, ok2)) :: l' => let '(s', r) := compile_with_state c t s j ok1 ok2 in r :: thread c t s' l'
    end.
  (** The jobs of one worker thread of the runtime, compiling in-process: it has a compiler per kind, worker.rs:362-371. *)
  Fixpoint worker (c : config) (sj sa : slot) (l : list (job * (bool * bool))) : list (option compilation) :=
    match l with
    | [] => []
    | (j, (ok1, ok2)) :: l' =>
        match j_kind j with
        | KJit => let '(s', r) := compile_with_state c TJit sj j ok1 ok2 in r :: worker c s' sa l'
        | KAot => let '(s', r) := compile_with_state c TAot sa j ok1 ok2 in r :: worker c sj s' l'
        end
    end.

  (** [HelperCompile], out_of_process.rs:520-528, and [write_job], 561-576 (the id is in [HelperModel]). *)
  Record request := mkReq { q_hash : str; q_spec : Z; q_opt : Z; q_symbol : str; q_code : list Z }.
  Definition write_job (j : job) : request := mkReq (j_hash j) (spec_to_u8 (j_spec j)) (opt_to_u8 (j_opt j)) (j_symbol j) (j_code j).
  (** [read_helper_request], 735-757. *)
  Definition read_request (q : request) : option job :=
    match spec_from_u8 (q_spec q) with
    | None => None
    | Some sp => match opt_from_u8 (q_opt q) with None => None | Some o => Some (mkJob KJit (q_hash q) sp (q_code q) (q_symbol q) o) end
    end.
  (** [run_jit_helper_stdio], 668-722, for the requests one of its pool threads gets; [None]: the helper gives up.
      A request that cannot be read ends the helper; the requests before it are served. *)
  Fixpoint read_all (l : list (request * (bool * bool))) : list (job * (bool * bool)) :=
    match l with
    | [] => []
    | (q, ok) :: l' => match read_request q with None => [] | Some j => (j, ok) :: read_all l' end
    end.
  Definition helper (i : init) (l : list (request * (bool * bool))) : option (list (option compilation)) :=
    match config_from_init i with None => None | Some c => Some (thread c TJitObject None (read_all l)) end.

  (** [matches_config], 256-264, without the path: a helper is used again only if it was started with the same init. *)
  Definition matches_config (i : init) (c : config) : Prop := i = helper_init c.
End Config.
