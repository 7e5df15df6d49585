(** Model of the limits and the process group of the JIT helper: [apply_helper_limits], [set_process_group],
    [set_rlimit], [limit_cpu_affinity], [kill_helper], [HelperProcessInner::kill] (crates/revmc-runtime/src/runtime/out_of_process.rs:313-330, 400-493).
    The closure given to [pre_exec] runs in the child before it becomes the helper; an error there makes [spawn] fail.
    The operating system is: one record for the child, a table of processes with their groups, and arbitrary answers
    (success or not) of the calls. Not modelled: other signals than SIGKILL, logging, systems other than Linux. *)
From Coq Require Export List Arith Bool Lia.
Export ListNotations.

(** [cpu_set_t]: one bit per CPU. *)
Definition cpu_set := list bool.
(** The loop of [limit_cpu_affinity], out_of_process.rs:471-482, from some CPU on: the bits set in [limited] and
    [remaining] after it. None: [remaining -= 1] underflows. *)
Fixpoint pick (current : cpu_set) (remaining : nat) : option (cpu_set * nat) :=
  match current with
  | [] => Some ([], remaining)
  | true :: rest =>
      match remaining with
      | O => None
      | S O => Some (true :: map (fun _ => false) rest, 0)
      | S r => match pick rest r with Some (l, r') => Some (true :: l, r') | None => None end
      end
  | false :: rest => match pick rest remaining with Some (l, r') => Some (false :: l, r') | None => None end
  end.

(** The child: its group, address space limit (soft, hard) and CPUs. *)
Record child := mkC { c_pid : nat; c_pgid : nat; c_as : nat * nat; c_cpus : cpu_set }.
(** Answers of the system to the calls in order. *)
Record answers := mkA { a_setpgid : bool; a_setrlimit : bool; a_getaffinity : bool; a_setaffinity : bool }.
Inductive outcome := Started (c : child) | Refused | Panicked.

(** [set_process_group], out_of_process.rs:420-425. *)
Definition set_process_group (a : answers) (c : child) : option child :=
  if a_setpgid a then Some (mkC (c_pid c) (c_pid c) (c_as c) (c_cpus c)) else None.
(** [set_rlimit], out_of_process.rs:454-461; [rlim_t] is u64 on Linux, [max] its largest value. *)
Definition set_rlimit (a : answers) (max value : nat) (c : child) : option child :=
  if a_setrlimit a then let v := Nat.min value max in Some (mkC (c_pid c) (c_pgid c) (v, v) (c_cpus c)) else None.
(** [limit_cpu_affinity], out_of_process.rs:464-493. *)
Definition limit_cpu_affinity (a : answers) (cpu_count : nat) (c : child) : outcome :=
  if negb (a_getaffinity a) then Refused
  else match pick (c_cpus c) cpu_count with
       | None => Panicked
       | Some (limited, remaining) =>
           if remaining =? cpu_count then Refused
           else if a_setaffinity a then Started (mkC (c_pid c) (c_pgid c) (c_as c) limited) else Refused
       end.
(** The closure of [apply_helper_limits], out_of_process.rs:407-416. *)
Definition pre_exec (a : answers) (max memory_limit cpu_count : nat) (c : child) : outcome :=
  match set_process_group a c with
  | None => Refused
  | Some c =>
      match (if 0 <? memory_limit then set_rlimit a max memory_limit c else Some c) with
      | None => Refused
      | Some c => if 0 <? cpu_count then limit_cpu_affinity a cpu_count c else Started c
      end
  end.

(** The process table: process and group ids. *)
Definition table := list (nat * nat).
Inductive event := Fork (parent new : nat) | Exit (p : nat).
(** [fork]: the new process is in the group of its parent (POSIX). *)
Definition sys1 (t : table) (e : event) : table :=
  match e with
  | Fork p q => match find (fun x => fst x =? p) t with Some x => (q, snd x) :: t | None => t end
  | Exit p => filter (fun x => negb (fst x =? p)) t
  end.
Definition sys (l : list event) (t : table) : table := fold_left sys1 l t.
(** [kill_helper], out_of_process.rs:427-440: [kill(-pid, SIGKILL)] reaches every process of the group; if there is
    none (ESRCH), [child.kill()]. *)
Definition kill_helper (t : table) (pid : nat) : table :=
  if existsb (fun x => snd x =? pid) t then filter (fun x => negb (snd x =? pid)) t
  else filter (fun x => negb (fst x =? pid)) t.
(** [HelperProcessInner::kill], out_of_process.rs:313-330: nothing is sent to a helper that has exited ([try_wait]);
    the wait for its end is not modelled. *)
Definition kill (t : table) (pid : nat) : table :=
  if negb (existsb (fun x => fst x =? pid) t) then t else kill_helper t pid.
