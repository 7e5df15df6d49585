(** Model of the builtins that read or change the world through the host.

    Sources: crates/revmc-builtins/src/{lib,utils,macros}.rs. The host (revm's [Host] over its journal,
    external) is an arbitrary record of functions on an arbitrary type of worlds; what is assumed of it
    is in HostSpec.v. Words are their values. Not modelled: the [on_log] callback, the [load_code] flag. *)
From Verif Require Export BuiltinModel.
Open Scope Z_scope.

(** [LoadError] (revm): a cold load skipped on request, or a database error. *)
Inductive lres (A : Type) := LOk (a : A) | LSkipped | LDb.
Arguments LOk {A}. Arguments LSkipped {A}. Arguments LDb {A}.

(** [AccountInfoLoad] (revm). *)
Record ainfo := mkAI { ai_balance : Z; ai_code : list Z; ai_hash : Z; ai_empty : bool }.
(** [SelfDestructResult] (revm). *)
Record sdinfo := mkSD { sd_had_value : bool; sd_target_exists : bool; sd_destroyed : bool }.

(** revm's [Host], the methods used here. Loads return whether the item was cold; the last argument of
    the loads is [skip_cold_load]. [h_sstore] returns the original and the present value. *)
Record host (W : Type) := mkHost {
  h_sload : W -> Z -> Z -> bool -> lres (Z * bool) * W;
  h_sstore : W -> Z -> Z -> Z -> bool -> lres (Z * Z * bool) * W;
  h_account : W -> Z -> bool -> lres (ainfo * bool) * W;
  h_balance : W -> Z -> option Z * W;
  h_tload : W -> Z -> Z -> Z;
  h_tstore : W -> Z -> Z -> Z -> W;
  h_log : W -> Z -> list Z -> list Z -> W;
  h_selfdestruct : W -> Z -> Z -> bool -> lres (sdinfo * bool) * W;
  (* [load_account_delegated] (revm): remaining gas, callee, value moved?, CALL?; dynamic and state gas *)
  h_delegated : W -> Z -> Z -> bool -> bool -> lres (Z * Z) * W
}.
Arguments mkHost {W}. Arguments h_sload {W}. Arguments h_sstore {W}. Arguments h_account {W}. Arguments h_balance {W}. Arguments h_tload {W}.
Arguments h_tstore {W}. Arguments h_log {W}. Arguments h_selfdestruct {W}. Arguments h_delegated {W}.

(** The entries of the gas schedule (revm's [GasParams], external). The three values are the original, the
    present and the new value of a slot. *)
Record hgas := mkHG {
  hg_cold_account : Z; hg_cold_slot : Z; hg_stipend : Z; hg_sstore_static : Z;
  hg_sstore_dyn : bool -> Z * Z * Z -> bool -> Z; hg_sstore_state : Z * Z * Z -> Z; hg_sstore_refill : Z * Z * Z -> Z;
  hg_sstore_refund : bool -> Z * Z * Z -> Z;
  hg_sd_cold : Z; hg_sd_cost : bool -> bool -> Z; hg_new_account_state : Z; hg_sd_refund : Z;
  hg_log : Z -> Z -> Z; hg_extcodecopy : Z -> Z; hg_create_state : Z; hg_calls : gas_params
}.
(** [spec_id.is_enabled_in(..)] for the forks asked about, and EIP-8037 as the host says. *)
Record forks := mkFk { fk_tangerine : bool; fk_spurious : bool; fk_istanbul : bool; fk_berlin : bool; fk_shanghai : bool; fk_8037 : bool }.

(** The parts of [EvmContext] the builtins change: gas and memory, the state gas reservoir, the refund
    counter, the world behind the host. *)
Record est (W : Type) := mkE { e_b : bst; e_res : Z; e_refund : Z; e_w : W }.
Arguments mkE {W}. Arguments e_b {W}. Arguments e_res {W}. Arguments e_refund {W}. Arguments e_w {W}.
Definition e_gas {W} (e : est W) : Z := mm_gas (b_mem (e_b e)).
Definition with_b {W} (e : est W) (b : bst) : est W := mkE b (e_res e) (e_refund e) (e_w e).
Definition with_w {W} (e : est W) (w : W) : est W := mkE (e_b e) (e_res e) (e_refund e) w.
Definition with_refund {W} (e : est W) (r : Z) : est W := mkE (e_b e) (e_res e) r (e_w e).
Definition with_res {W} (e : est W) (r : Z) : est W := mkE (e_b e) r (e_refund e) (e_w e).

(** Results: the error is [InstructionResult]; [HSentry] is [ReentrancySentryOOG], [HDestruct] is
    [SelfDestruct] (a successful end of the frame). The context is returned on every path: changes made
    before an error stay (revm reverts them with the frame). *)
Inductive herr := HB (e : berr) | HSentry | HDestruct.
Inductive hres (A : Type) := HOk (a : A) | HErr (e : herr).
Arguments HOk {A}. Arguments HErr {A}.
Definition hm (W A : Type) : Type := est W -> hres A * est W.
Definition hret {W A} (a : A) : hm W A := fun e => (HOk a, e).
Definition hfail {W A} (x : herr) : hm W A := fun e => (HErr x, e).
Definition hbind {W A B} (m : hm W A) (f : A -> hm W B) : hm W B :=
  fun e => match m e with (HOk a, e') => f a e' | (HErr x, e') => (HErr x, e') end.
Notation "'run' x <- a ; b" := (hbind a (fun x => b)) (at level 200, x pattern, a at level 100, b at level 200).

(** [gas!] and [state_gas!], macros.rs:1-19; [record_refund] and [refill_reservoir] (revm, external). *)
Definition hcharge {W} (c : Z) : hm W unit :=
  fun e => match charge_b (e_b e) c with BOk b => (HOk tt, with_b e b) | BErr x => (HErr (HB x), e) end.
Definition hstate_gas {W} (c : Z) : hm W unit :=
  fun e => match state_gas (e_b e) (e_res e) c with BOk (b, r) => (HOk tt, with_res (with_b e b) r) | BErr x => (HErr (HB x), e) end.
Definition hrefund {W} (r : Z) : hm W unit := fun e => (HOk tt, with_refund e (e_refund e + r)).
Definition hrefill {W} (r : Z) : hm W unit := fun e => (HOk tt, with_res e (e_res e + r)).
(** [ensure_non_staticcall!], macros.rs:21-29. *)
Definition non_static {W} (fr : frame) : hm W unit := fun e => if fr_static fr then (HErr (HB EStatic), e) else (HOk tt, e).
Definition remaining {W} : hm W Z := fun e => (HOk (e_gas e), e).
(** [From<LoadError> for BuiltinError], utils.rs:30-39: a skipped cold load is out of gas, a database error
    fatal; [ok_or_fatal], utils.rs:41-51. *)
Definition hload {W A} (f : W -> lres A * W) : hm W A :=
  fun e => match f (e_w e) with
           | (LOk a, w) => (HOk a, with_w e w)
           | (LSkipped, w) => (HErr (HB EOutOfGas), with_w e w)
           | (LDb, w) => (HErr (HB EHost), with_w e w)
           end.
(** The variants without [skip_cold_load] return an option: revm maps every [LoadError] to [None]. *)
Definition hload_fatal {W A} (f : W -> lres A * W) : hm W A :=
  fun e => match f (e_w e) with
           | (LOk a, w) => (HOk a, with_w e w)
           | (_, w) => (HErr (HB EHost), with_w e w)
           end.
Definition hput {W} (f : W -> W) : hm W unit := fun e => (HOk tt, with_w e (f (e_w e))).
(** A builtin of BuiltinModel.v that works on gas and memory only. *)
Definition lift {W A} (f : bst -> bres (A * bst)) : hm W A :=
  fun e => match f (e_b e) with BOk (a, b) => (HOk a, with_b e b) | BErr x => (HErr (HB x), e) end.

(** [EvmWord::to_address], revmc-context/src/lib.rs:819-821: the low 20 bytes. *)
Definition to_addr (a : Z) : Z := a mod 2 ^ 160.
Definition reservoir {W} : hm W Z := fun e => (HOk (e_res e), e).

Section Builtins.
  Context {W : Type} (h : host W) (g : hgas) (fk : forks) (fr : frame).

  (** [load_account], utils.rs:56-68. *)
  Definition load_acc (a : Z) : hm W ainfo :=
    run gas <- remaining;
    run (i, cold) <- hload (fun w => h_account h w a (gas <? hg_cold_account g));
    run _ <- (if cold : bool then hcharge (hg_cold_account g) else hret tt);
    hret i.
  (** BALANCE, lib.rs:217-225. *)
  Definition hbalance (a : Z) : hm W Z := run i <- load_acc (to_addr a); hret (ai_balance i).
  (** EXTCODESIZE, lib.rs:307-315. *)
  Definition hextcodesize (a : Z) : hm W Z := run i <- load_acc (to_addr a); hret (Z.of_nat (length (ai_code i))).
  (** EXTCODEHASH, lib.rs:366-375. *)
  Definition hextcodehash (a : Z) : hm W Z := run i <- load_acc (to_addr a); hret (if ai_empty i then 0 else ai_hash i).
  (** EXTCODECOPY, lib.rs:318-339. *)
  Definition hextcodecopy (a memory_offset code_offset len : Z) : hm W unit :=
    run (memory_offset, len) <- lift (fun s =>
      do len <- to_usize len;
      do s <- charge_b s (hg_extcodecopy g len);
      if len =? 0 then BOk (0, len, s)
      else do memory_offset <- to_usize memory_offset; do s <- expand s memory_offset len; BOk (memory_offset, len, s));
    run i <- load_acc (to_addr a);
    lift (fun s => do s <- set_data s memory_offset (Z.min (sat_usize code_offset) (Z.of_nat (length (ai_code i)))) len (ai_code i); BOk (tt, s)).
  (** SELFBALANCE, lib.rs:448-455. *)
  Definition hselfbalance : hm W Z :=
    fun e => match h_balance h (e_w e) (fr_target fr) with
             | (Some v, w) => (HOk v, with_w e w)
             | (None, w) => (HErr (HB EHost), with_w e w)
             end.

  (** SLOAD, lib.rs:485-505 ([sload_c], lib.rs:508-516, is the same with a 64-bit key; its inner
      call leaves through [fail] on errors, lib.rs:79-97). *)
  Definition hsload (key : Z) : hm W Z :=
    if fk_berlin fk then
      run gas <- remaining;
      run (v, cold) <- hload (fun w => h_sload h w (fr_target fr) key (gas <? hg_cold_slot g));
      run _ <- (if cold : bool then hcharge (hg_cold_slot g) else hret tt);
      hret v
    else
      run (v, _) <- hload_fatal (fun w => h_sload h w (fr_target fr) key false);
      hret v.

  (** SSTORE, lib.rs:519-559. *)
  Definition hsstore (key value : Z) : hm W unit :=
    run _ <- non_static fr;
    run gas <- remaining;
    if fk_istanbul fk && (gas <=? hg_stipend g) then hfail HSentry
    else
      run _ <- hcharge (hg_sstore_static g);
      run (orig, pres, cold) <-
        (if fk_berlin fk then
           run gas <- remaining;
           hload (fun w => h_sstore h w (fr_target fr) key value (gas <? hg_cold_slot g))
         else hload_fatal (fun w => h_sstore h w (fr_target fr) key value false));
      run _ <- hcharge (hg_sstore_dyn g (fk_istanbul fk) (orig, pres, value) cold);
      run _ <- (if fk_8037 fk then
                  run _ <- hstate_gas (hg_sstore_state g (orig, pres, value));
                  let refill := hg_sstore_refill g (orig, pres, value) in
                  if 0 <? refill then hrefill refill else hret tt
                else hret tt);
      hrefund (hg_sstore_refund g (fk_istanbul fk) (orig, pres, value)).

  (** TLOAD and TSTORE, lib.rs:562-575. *)
  Definition htload (key : Z) : hm W Z := fun e => (HOk (h_tload h (e_w e) (fr_target fr) key), e).
  Definition htstore (key value : Z) : hm W unit :=
    run _ <- non_static fr; hput (fun w => h_tstore h w (fr_target fr) key value).

  (** LOG0..LOG4, lib.rs:595-630 ([log_n] of BuiltinModel.v, then the host). *)
  Definition hlog (offset len : Z) (topics : list Z) : hm W unit :=
    run (ts, data) <- lift (fun b => log_n (hg_log g) (fr_static fr) b offset len topics);
    hput (fun w => h_log h w (fr_target fr) ts data).

  (** SELFDESTRUCT, lib.rs:866-896. *)
  Definition hselfdestruct (target : Z) : hm W unit :=
    run _ <- non_static fr;
    run gas <- remaining;
    run (i, cold) <- hload (fun w => h_selfdestruct h w (fr_target fr) (to_addr target) (gas <? hg_sd_cold g));
    let topup := if fk_spurious fk then sd_had_value i && negb (sd_target_exists i) else negb (sd_target_exists i) in
    run _ <- hcharge (hg_sd_cost g topup cold);
    run _ <- (if fk_8037 fk && topup then hstate_gas (hg_new_account_state g) else hret tt);
    run _ <- (if sd_destroyed i then hret tt else hrefund (hg_sd_refund g));
    hfail HDestruct.

  (** CALL and friends, lib.rs:701-823; [builtin_call] of BuiltinModel.v is the same with the answer of the
      load given ([HostProof.hcall_builtin]). The two errors for static frames are not told apart. *)
  Definition hcall (kind : call_kind) (limit to value in_offset in_len out_offset out_len : Z) : hm W call_inputs :=
    let limit := sat_usize limit in
    let to := to_addr to in
    let has_value := match kind with KCall | KCallCode => true | _ => false end in
    let value := if has_value then value else 0 in
    let transfers := negb (value =? 0) in
    if kind_eqb kind KCall && fr_static fr && transfers then hfail (HB EStatic)
    else
      run input <- lift (fun s => frame_range s in_offset in_len);
      run output <- lift (fun s => frame_range s out_offset out_len);
      run _ <- (if transfers then hcharge (gp_transfer (hg_calls g)) else hret tt);
      run gas <- remaining;
      run (dynamic, state_cost) <- hload (fun w => h_delegated h w gas to transfers (kind_eqb kind KCall));
      run _ <- hcharge dynamic;
      run _ <- hstate_gas state_cost;
      run gas <- remaining;
      let gas_limit := if fk_tangerine fk then Z.min (call_stipend_reduction (hg_calls g) gas) limit else limit in
      run _ <- hcharge gas_limit;
      let gas_limit := if has_value && transfers then sat_usize (gas_limit + gp_stipend (hg_calls g)) else gas_limit in
      run res <- reservoir;
      hret (mkCI input output gas_limit to
              (match kind with KDelegateCall | KCallCode => fr_target fr | _ => to end)
              (if kind_eqb kind KDelegateCall then fr_caller fr else fr_target fr)
              (if kind_eqb kind KDelegateCall then fr_value fr else value)
              (kind_eqb kind KDelegateCall)
              (fr_static fr || kind_eqb kind KStaticCall) res).
  (** CREATE and CREATE2, lib.rs:633-698: [builtin_create] of BuiltinModel.v. *)
  Definition hcreate (max_init : Z) (value code_offset len : Z) (salt : option Z) : hm W create_inputs :=
    fun e => match builtin_create (hg_calls g) (fk_tangerine fk) (fk_shanghai fk) max_init (if fk_8037 fk then hg_create_state g else 0)
                     fr (e_b e) (e_res e) value code_offset len salt with
             | BOk (ci, b) => (HOk ci, with_res (with_b e b) (cr_reservoir ci))
             | BErr x => (HErr (HB x), e)
             end.

  (** The builtins a compiled function calls that reach the host, lib.rs:217-896, with their operands. *)
  Inductive hop :=
    | OBalance (a : Z) | OExtcodesize (a : Z) | OExtcodehash (a : Z) | OExtcodecopy (a m c n : Z) | OSelfbalance
    | OSload (k : Z) | OSstore (k v : Z) | OTload (k : Z) | OTstore (k v : Z) | OLog (offset len : Z) (topics : list Z)
    | OSelfdestruct (a : Z)
    | OCall (kind : call_kind) (limit to value in_offset in_len out_offset out_len : Z)
    | OCreate (max_init value code_offset len : Z) (salt : option Z).
  (** What the function gets back: a word or nothing, or a frame to start. *)
  Inductive hans := AWord (v : Z) | ANone | ACall (ci : call_inputs) | ACreate (ci : create_inputs).
  Definition hmap {A B} (f : A -> B) (m : hm W A) : hm W B := run a <- m; hret (f a).
  Definition run_op (o : hop) : hm W hans :=
    match o with
    | OBalance a => hmap AWord (hbalance a)
    | OExtcodesize a => hmap AWord (hextcodesize a)
    | OExtcodehash a => hmap AWord (hextcodehash a)
    | OExtcodecopy a m c n => hmap (fun _ => ANone) (hextcodecopy a m c n)
    | OSelfbalance => hmap AWord hselfbalance
    | OSload k => hmap AWord (hsload k)
    | OSstore k v => hmap (fun _ => ANone) (hsstore k v)
    | OTload k => hmap AWord (htload k)
    | OTstore k v => hmap (fun _ => ANone) (htstore k v)
    | OLog offset len topics => hmap (fun _ => ANone) (hlog offset len topics)
    | OSelfdestruct a => hmap (fun _ => ANone) (hselfdestruct a)
    | OCall kind limit to value i il o ol => hmap ACall (hcall kind limit to value i il o ol)
    | OCreate max_init value code_offset len salt => hmap ACreate (hcreate max_init value code_offset len salt)
    end.
End Builtins.
