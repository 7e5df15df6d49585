(** Model of the artifact store (crates/revmc-runtime/src/runtime/storage.rs) on top of a small file
    system, and of the start-up preload (mod.rs). File names here are relative to
    /repo/crates/revmc-runtime/src/runtime/.

    Simplifications. Each store operation is one step (the index is a concurrent map, but the only user in
    the runtime is the backend thread). Code hashes are integers below 2^256 and hardforks integers (the
    names are those of `SpecId`). Dynamic loading is an oracle from the file's contents and the symbol to
    the machine code. *)
From Coq Require Export ZArith List Bool Arith Lia Permutation String Ascii.
From Verif Require Export RuntimeModel.
Export ListNotations.
Open Scope Z_scope.

(** storage.rs:57-65 `BackendSelection`. *)
Inductive backend := BAuto | BLlvm.
(** crates/revmc-backend/src/traits.rs:61-74 `OptimizationLevel`. *)
Inductive opt_level := OptNone | OptLess | OptDefault | OptAggressive.
(** storage.rs:18-29 `ArtifactKey`. *)
Record artifact_key := mkAKey { a_run : key; a_backend : backend; a_opt : opt_level }.
Definition backend_eqb (a b : backend) : bool := match a, b with BAuto, BAuto | BLlvm, BLlvm => true | _, _ => false end.
Definition opt_eqb (a b : opt_level) : bool :=
  match a, b with OptNone, OptNone | OptLess, OptLess | OptDefault, OptDefault | OptAggressive, OptAggressive => true | _, _ => false end.
(** storage.rs:21 `derive(PartialEq)`. *)
Definition artifact_key_eqb (a b : artifact_key) : bool :=
  key_eqb (a_run a) (a_run b) && backend_eqb (a_backend a) (a_backend b) && opt_eqb (a_opt a) (a_opt b).

(** storage.rs:40-55 `ArtifactManifest`. *)
Record manifest := mkManifest { m_key : artifact_key; m_symbol : string; m_code_len : Z; m_len : Z; m_time : Z; m_hash : Z }.
(** storage.rs:31-38 `StoredArtifact`. *)
Record stored := mkStored { st_manifest : manifest; st_path : string }.

(** `{:x}` of a 256-bit hash: 64 lowercase hexadecimal digits (storage.rs:119). *)
Definition hex_digit (d : Z) : ascii :=
  nth (Z.to_nat d) ["0"; "1"; "2"; "3"; "4"; "5"; "6"; "7"; "8"; "9"; "a"; "b"; "c"; "d"; "e"; "f"]%char "0"%char.
Fixpoint hex_digits (n : nat) (x : Z) (acc : string) : string :=
  match n with
  | O => acc
  | S n => hex_digits n (x / 16) (String (hex_digit (x mod 16)) acc)
  end.
(** `{:?}` of the hardfork: the variant's name (`SpecId` derives `Debug`). *)
Definition spec_names : list string :=
  ["FRONTIER"; "HOMESTEAD"; "TANGERINE"; "SPURIOUS_DRAGON"; "BYZANTIUM"; "PETERSBURG"; "ISTANBUL"; "BERLIN"; "LONDON"; "MERGE";
   "SHANGHAI"; "CANCUN"; "PRAGUE"; "OSAKA"; "AMSTERDAM"]%string.
Definition spec_name (n : Z) : string := nth (Z.to_nat n) spec_names ""%string.
(** `{:?}` of the backend and of the level (both derive `Debug`). *)
Definition backend_name (b : backend) : string := match b with BAuto => "Auto" | BLlvm => "Llvm" end.
Definition opt_name (o : opt_level) : string :=
  match o with OptNone => "None" | OptLess => "Less" | OptDefault => "Default" | OptAggressive => "Aggressive" end.
(** storage.rs:117-122 `artifact_path`, relative to the store's own temporary directory. *)
Definition artifact_path (k : artifact_key) : string :=
  (hex_digits 64 (fst (a_run k)) "" ++ "_" ++ spec_name (snd (a_run k)) ++ "_" ++ backend_name (a_backend k) ++ "_" ++ opt_name (a_opt k) ++ ".so")%string.

(** The part of the file system the store uses: names, file contents by inode. *)
Record fsys := mkFs { fs_dir : list (string * nat); fs_data : list (nat * list Z); fs_next : nat }.
(** Outcome of `fs::write` (open with truncation, then write all): success, failure to open, or failure
    after some of the bytes. *)
Inductive wresult := WOk | WOpen | WShort (n : nat).
Definition fs_write (r : wresult) (p : string) (bytes : list Z) (fs : fsys) : bool * fsys :=
  match r with
  | WOpen => (false, fs)
  | _ =>
      let data := match r with WShort n => firstn n bytes | _ => bytes end in
      let fs' := match kget String.eqb p (fs_dir fs) with
                 | Some i => mkFs (fs_dir fs) (kset Nat.eqb i data (fs_data fs)) (fs_next fs)
                 | None => mkFs (kset String.eqb p (fs_next fs) (fs_dir fs)) (kset Nat.eqb (fs_next fs) data (fs_data fs)) (S (fs_next fs))
                 end in
      (match r with WOk => true | _ => false end, fs')
  end.
(** `fs::remove_file`: unlinks the name. *)
Definition fs_remove (ok : bool) (p : string) (fs : fsys) : fsys :=
  if ok then mkFs (kdel String.eqb p (fs_dir fs)) (fs_data fs) (fs_next fs) else fs.
Definition fs_read (p : string) (fs : fsys) : option (list Z) :=
  match kget String.eqb p (fs_dir fs) with Some i => kget Nat.eqb i (fs_data fs) | None => None end.

(** storage.rs:94-99 `RuntimeArtifactStore`. *)
Record store := mkStore { sto_index : list (artifact_key * stored); sto_fs : fsys }.
(** storage.rs:101-105 `new`: an empty index and a fresh directory. *)
Definition store_new : store := mkStore [] (mkFs [] [] 0).
(** storage.rs:134-136 `load`. *)
Definition store_load (k : artifact_key) (s : store) : option stored := kget artifact_key_eqb k (sto_index s).
(** storage.rs:138-149 `store`; [true] is `Ok`. *)
Definition store_store (r : wresult) (k : artifact_key) (m : manifest) (bytes : list Z) (s : store) : bool * store :=
  let path := artifact_path k in
  let '(ok, fs) := fs_write r path bytes (sto_fs s) in
  if ok then (true, mkStore (kset artifact_key_eqb k (mkStored m path) (sto_index s)) fs) else (false, mkStore (sto_index s) fs).
(** storage.rs:151-156 `delete`; the result of `remove_file` is ignored. *)
Definition store_delete (ok : bool) (k : artifact_key) (s : store) : store :=
  match kget artifact_key_eqb k (sto_index s) with
  | Some a => mkStore (kdel artifact_key_eqb k (sto_index s)) (fs_remove ok (st_path a) (sto_fs s))
  | None => s
  end.
(** storage.rs:158-165 `clear`; [oks p] is the (ignored) outcome of removing [p]. *)
Definition store_clear (oks : string -> bool) (s : store) : store :=
  let paths := map (fun e => st_path (snd e)) (sto_index s) in
  mkStore [] (fold_left (fun fs p => fs_remove (oks p) p fs) paths (sto_fs s)).
(** storage.rs:126-132 `load_all`, in index order (the caller sees some permutation of it). *)
Definition store_load_all (s : store) : list (artifact_key * stored) := sto_index s.

(** A call, with the outcomes of the file operations it performs. *)
Inductive op :=
| OStore (k : artifact_key) (m : manifest) (bytes : list Z) (r : wresult)
| ODelete (k : artifact_key) (ok : bool)
| OClear (oks : string -> bool).
Definition op_apply (o : op) (s : store) : store :=
  match o with
  | OStore k m bytes r => snd (store_store r k m bytes s)
  | ODelete k ok => store_delete ok k s
  | OClear oks => store_clear oks s
  end.
Definition ops_apply (l : list op) (s : store) : store := fold_left (fun s o => op_apply o s) l s.

(** ** Preload. *)
(** mod.rs:545-558 `load_artifact`: `dlopen` of the file and lookup of the manifest's symbol, through an
    oracle from the contents and symbol to the code. *)
Definition load_artifact (dl : list Z -> string -> option func) (fs : fsys) (a : artifact_key) (s : stored) : option program :=
  match fs_read (st_path s) fs with
  | Some bytes => option_map (fun f => mkProg (a_run a) Aot f) (dl bytes (m_symbol (st_manifest s)))
  | None => None
  end.
(** mod.rs:494-542 `preload_aot` over the artifacts returned by `load_all`; [seen] is the local set. *)
Fixpoint preload_loop (load : artifact_key -> stored -> option program) (arts : list (artifact_key * stored)) (seen : list key) : list (key * program) :=
  match arts with
  | [] => []
  | (a, s) :: arts =>
      match load a s with
      | Some p => if existsb (key_eqb (a_run a)) seen then preload_loop load arts seen
                  else (a_run a, p) :: preload_loop load arts (a_run a :: seen)
      | None => preload_loop load arts seen
      end
  end.
Definition preload_aot (load : artifact_key -> stored -> option program) (arts : option (list (artifact_key * stored))) : list (key * program) :=
  match arts with None => [] | Some arts => preload_loop load arts [] end.
