(** Model of the process-wide JIT shared by all compiler instances: the builtins JITDylib with its set of names
    already handed to it, and the JITDylibs created per compiler, crates/revmc-llvm/src/lib.rs:203-345, 457-468,
    706-738. Any number of threads run at the same time; a step is what happens under one lock or in one call into
    LLVM. Simplified: symbol names are numbers; a thread's module or object refers to the builtins it has asked for;
    the process-symbol generator attached to each JITDylib (lib.rs:298-303) finds none of them. Not modelled:
    trackers and guards (LifeModel), code, debug and profiling plugins. *)
From Coq Require Export List Arith Bool Lia String.
From Coq Require Export DecimalString.
Export ListNotations.

Definition name := nat.
Definition symbol := (name * nat)%type. (* name, address *)

(** [GlobalOrcJit] (lib.rs:206-224): [builtins_defined], the symbols of [builtins_jd], [next_dylib_id] and the names
    of the JITDylibs in the session. *)
Record shared := mkG { g_marked : list name; g_dylib : list symbol; g_next : nat; g_dylibs : list string }.
(** [GlobalOrcJit::get], lib.rs:236-287: only the builtins JITDylib exists. *)
Definition g_init : shared := mkG [] [] 0 ["revmc.builtins"%string].

(** Where a thread is: outside; past the lock in [define_builtins], with the symbols it has to define and those it
    was asked for; after [define_builtins], about to link code that refers to these. *)
Inductive phase := Idle | Defining (new syms : list symbol) | Linking (syms : list symbol).

Definition mem (x : name) (l : list name) : bool := existsb (Nat.eqb x) l.
(** The loop under the lock, lib.rs:321-338: [HashSet::insert] is true for a name not yet in the set. *)
Fixpoint mark (marked : list name) (syms : list symbol) : list symbol * list name :=
  match syms with
  | [] => ([], marked)
  | (n, a) :: l =>
      if mem n marked then mark marked l
      else let '(new, m) := mark (n :: marked) l in ((n, a) :: new, m)
  end.
(** [define] of absolute symbols (ORC): all or nothing, refused if one of the names is defined already. *)
Definition define (dylib new : list symbol) : option (list symbol) :=
  if existsb (fun s => mem (fst s) (map fst dylib)) new then None else Some (dylib ++ new).
(** [lookup_in] (ORC): linking finds every symbol the code refers to, or fails. *)
Definition found (dylib : list symbol) (s : symbol) : bool := mem (fst s) (map fst dylib).
(** [create_jit_dylib], lib.rs:291-306: the name of the next JITDylib. *)
Definition dylib_name (id : nat) : string := ("revmc.compiler." ++ NilEmpty.string_of_uint (Nat.to_uint id))%string.

(** Everything: shared state, threads, and for the statements the names of which a definition failed, and the
    results of linking. *)
Record sys := mkS { s_g : shared; s_t : nat -> phase; s_failed : list name; s_links : list (nat * list symbol * bool) }.
Definition s_init : sys := mkS g_init (fun _ => Idle) [] [].
Definition at_ (t : nat) (p : phase) (ts : nat -> phase) : nat -> phase := fun u => if u =? t then p else ts u.

Inductive step :=
| Start (t : nat) (syms : list symbol)   (* define_builtins up to the release of the lock, lib.rs:317-339 *)
| Define (t : nat) (ok : bool)           (* the rest of it, lib.rs:340-345; [ok]: ORC fails for no other reason *)
| Link (t : nat)                         (* add_object_with_rt or add_module_with_rt, and lookup_in, lib.rs:465-466, 729, 1060 *)
| NewDylib (t : nat).                    (* create_jit_dylib, lib.rs:291-306 *)

(** A thread takes a step it is not at: nothing happens. *)
Definition run1 (s : sys) (e : step) : sys :=
  match e with
  | Start t syms =>
      match s_t s t with
      | Idle =>
          match syms with
          | [] => mkS (s_g s) (at_ t (Linking []) (s_t s)) (s_failed s) (s_links s)
          | _ =>
              let '(new, marked) := mark (g_marked (s_g s)) syms in
              mkS (mkG marked (g_dylib (s_g s)) (g_next (s_g s)) (g_dylibs (s_g s)))
                  (at_ t (Defining new syms) (s_t s)) (s_failed s) (s_links s)
          end
      | _ => s
      end
  | Define t ok =>
      match s_t s t with
      | Defining [] syms => mkS (s_g s) (at_ t (Linking syms) (s_t s)) (s_failed s) (s_links s)
      | Defining new syms =>
          match (if ok then define (g_dylib (s_g s)) new else None) with
          | Some d => mkS (mkG (g_marked (s_g s)) d (g_next (s_g s)) (g_dylibs (s_g s)))
                          (at_ t (Linking syms) (s_t s)) (s_failed s) (s_links s)
          | None => mkS (s_g s) (at_ t (Linking syms) (s_t s)) (map fst new ++ s_failed s) (s_links s)
          end
      | _ => s
      end
  | Link t =>
      match s_t s t with
      | Linking syms => mkS (s_g s) (at_ t Idle (s_t s)) (s_failed s) ((t, syms, forallb (found (g_dylib (s_g s))) syms) :: s_links s)
      | _ => s
      end
  | NewDylib _ =>
      let g := s_g s in
      mkS (mkG (g_marked g) (g_dylib g) (S (g_next g)) (dylib_name (g_next g) :: g_dylibs g)) (s_t s) (s_failed s) (s_links s)
  end.
Definition run (l : list step) (s : sys) : sys := fold_left run1 l s.
