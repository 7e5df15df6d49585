(** What a compilation is to be done with. *)
From Verif Require Export ConfigModel.

(** A gas table proper, and the pairs that describe it: every id once. *)
Definition gas_table_ok (t : gas_table) : Prop := length t = 256%nat.
Definition describes (pairs : list (nat * Z)) (t : gas_table) : Prop :=
  length pairs = 256%nat /\ NoDup (map fst pairs) /\ length t = 256%nat /\ forall id v, In (id, v) pairs -> nth_error t id = Some v.

Section Spec.
  Context {path str spec rest : Type}.
  Notation config := (@config path rest).
  Notation job := (@job str spec).
  Notation compilation := (@compilation path str spec).
  Variable build_frame : bool.
  (** The directory dumps go to, given the configured one. *)
  Variable dir : path -> path.

  Definition wants_dump (c : config) (j : job) : option (path * spec * str) :=
    match j_kind j with KJit => option_map (fun p => (dir p, j_spec j, j_hash j)) (c_dump c) | KAot => None end.
  (** The compilation [m] is of job [j], for target [t], with what configuration [c] asks for. *)
  Record as_configured (c : config) (t : target) (j : job) (m : compilation) : Prop := {
    ac_code : m_code m = j_code j;
    ac_spec : m_spec m = j_spec j;
    ac_symbol : m_symbol m = j_symbol j;
    ac_opt : o_opt (m_opts m) = j_opt j;
    ac_debug : o_debug (m_opts m) = c_debug c;
    ac_single : o_single (m_opts m) = c_single c;
    ac_dedup : o_dedup (m_opts m) = true <-> c_no_dedup c = false;
    ac_dse : o_dse (m_opts m) = true <-> c_no_dse c = false;
    ac_gas : o_gas (m_opts m) = c_gas c;
    ac_target : o_aot (m_opts m) = true <-> t <> TJit;
    ac_dump : o_dump (m_opts m) = wants_dump c j;
    ac_info : o_info (m_opts m) = true <-> wants_dump c j <> None;
    ac_frame : o_frame (m_opts m) = true <-> build_frame = true \/ wants_dump c j <> None
  }.
  (** Each job was compiled as configured, unless a compiler was needed and could not be created. *)
  Definition all_configured (c : config) (t : job -> target) (l : list (job * (bool * bool))) (r : list (option compilation)) : Prop :=
    Forall2 (fun e m => match m with Some m => as_configured c (t (fst e)) (fst e) m | None => fst (snd e) = false end) l r.
End Spec.

(** The compiler a thread holds after a list of jobs, starting from [s]. *)
Section Held.
  Context {path str spec rest : Type}.
  Definition held (build_debug build_frame : bool) (c : @config path rest) (t : target) (s : @slot path str spec) (l : list (@job str spec * (bool * bool))) : slot :=
    fold_left (fun s e => fst (compile_with_state build_debug build_frame c t s (fst e) (fst (snd e)) (snd (snd e)))) l s.
End Held.
