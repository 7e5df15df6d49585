(** What is assumed of the host and what the builtins that use it should do.

    The host is revm's journal (not in /repo). [obs] is what other transactions can see of a world: balances,
    storage, transient storage, code, logs; which items are warm is not part of it. *)
From Verif Require Export HostModel.
Open Scope Z_scope.

(** Loading an item only changes what is warm. *)
Record loads_keep {W O : Type} (h : host W) (obs : W -> O) : Prop := mkLK {
  lk_sload : forall w a k s, obs (snd (h_sload h w a k s)) = obs w;
  lk_account : forall w a s, obs (snd (h_account h w a s)) = obs w;
  lk_balance : forall w a, obs (snd (h_balance h w a)) = obs w;
  lk_delegated : forall w gas a t c, obs (snd (h_delegated h w gas a t c)) = obs w
}.
(** Moving nothing, or to oneself, changes nothing. *)
Definition moves {W O : Type} (transfer : W -> Z -> Z -> Z -> W) (obs : W -> O) : Prop :=
  forall w from to v, v = 0 \/ from = to -> obs (transfer w from to v) = obs w.

(** ** Executions of frames (C53). *)

(** The frame revm makes of the inputs of a call, and the world it starts in. *)
Definition child (ci : call_inputs) : frame := mkFr (ci_static ci) (ci_target ci) (ci_caller ci) (ci_value ci).
Definition enter {W} (transfer : W -> Z -> Z -> Z -> W) (ci : call_inputs) (w : W) : W :=
  if ci_apparent ci then w else transfer w (ci_caller ci) (ci_target ci) (ci_value ci).

(** The worlds a frame can lead to. Between two uses of the host anything may happen to gas, memory and
    stack: each use starts from any context with the world at hand, with any operands. A called frame
    runs to any point and is kept or reverted. A created frame may leave any world behind. A frame may also
    go on after an error, which only allows more. *)
Inductive exec {W O : Type} (h : host W) (g : hgas) (fk : forks) (transfer : W -> Z -> Z -> Z -> W) (obs : W -> O) : frame -> W -> W -> Prop :=
  | ex_end fr w : exec h g fk transfer obs fr w w
  | ex_op fr o e r e' w :
      run_op h g fk fr o e = (r, e') ->
      (forall ci, r <> HOk (ACall ci)) -> (forall ci, r <> HOk (ACreate ci)) ->
      exec h g fk transfer obs fr (e_w e') w -> exec h g fk transfer obs fr (e_w e) w
  | ex_call fr o e ci e' w1 w2 w :
      run_op h g fk fr o e = (HOk (ACall ci), e') ->
      exec h g fk transfer obs (child ci) (enter transfer ci (e_w e')) w1 ->
      w2 = w1 \/ obs w2 = obs (e_w e') ->
      exec h g fk transfer obs fr w2 w -> exec h g fk transfer obs fr (e_w e) w
  | ex_create fr o e ci e' w2 w :
      run_op h g fk fr o e = (HOk (ACreate ci), e') ->
      exec h g fk transfer obs fr w2 w -> exec h g fk transfer obs fr (e_w e) w.

(** EIP-214 and EIP-1153: the instructions a static frame may not execute. *)
Definition forbidden (o : hop) : bool :=
  match o with
  | OSstore _ _ | OTstore _ _ | OLog _ _ _ | OSelfdestruct _ | OCreate _ _ _ _ _ => true
  | OCall KCall _ _ value _ _ _ _ => negb (value =? 0)
  | _ => false
  end.

(** ** Cold items (C54). *)

(** A load that may be told to skip cold items: told so, it skips the cold and treats the warm as ever; not
    told so it never skips. When the database fails it does not succeed either way. *)
Definition skips {W A : Type} (f : W -> bool -> lres (A * bool) * W) : Prop :=
  forall w, match f w false with
            | (LOk (a, true), _) => fst (f w true) = LSkipped
            | (LOk (a, false), w') => f w true = (LOk (a, false), w')
            | (LSkipped, _) => False
            | (LDb, _) => forall x, fst (f w true) <> LOk x
            end.

(** The context after paying [c] from the gas, with world [w]. *)
Definition paid {W} (e : est W) (c : Z) (w : W) : est W :=
  mkE (mkB (mkMem (e_gas e - c) (mm_words (b_mem (e_b e))) (mm_paid (b_mem (e_b e)))) (b_data (e_b e))) (e_res e) (e_refund e) w.
(** The same with [s] of state gas, from the reservoir while it lasts. *)
Definition from_gas {W} (e : est W) (s : Z) : Z := Z.max 0 (s - e_res e).
Definition settled {W} (e : est W) (c s refill refund : Z) (w : W) : est W :=
  let p := paid e (c + from_gas e s) w in
  mkE (e_b p) (Z.max 0 (e_res e - s) + refill) (e_refund e + refund) w.

(** The result of looking an item up unconditionally and then paying [cost] of it, or running out of gas. *)
Definition priced {W A : Type} (m : hm W A) (e : est W) (look : lres (A * bool) * W) (cost : bool -> Z) : Prop :=
  match look with
  | (LOk (a, cold), w) => if cost cold <=? e_gas e then m e = (HOk a, paid e (cost cold) w) else exists e', m e = (HErr (HB EOutOfGas), e')
  | _ => exists x e', m e = (HErr x, e')
  end.

(** The schedule: costs are not negative, and the price of a cold store or destruction includes what decides
    whether it is skipped. *)
Record schedule (g : hgas) (fk : forks) : Prop := mkSch {
  sc_account : 0 <= hg_cold_account g;
  sc_slot : 0 <= hg_cold_slot g;
  sc_static : 0 <= hg_sstore_static g;
  sc_dyn : forall i v c, 0 <= hg_sstore_dyn g i v c;
  sc_state : forall v, 0 <= hg_sstore_state g v;
  sc_refill : forall v, 0 <= hg_sstore_refill g v;
  sc_dyn_cold : forall i v, fk_berlin fk = true -> hg_cold_slot g <= hg_sstore_dyn g i v true;
  sc_sd : 0 <= hg_sd_cold g /\ forall t c, 0 <= hg_sd_cost g t c;
  sc_sd_cold : forall t, hg_sd_cold g <= hg_sd_cost g t true;
  sc_sd_state : 0 <= hg_new_account_state g
}.

(** SSTORE as EIP-2200, EIP-2929 and EIP-8037 have it: the slot is written and its price then paid. *)
Definition stored {W} (h : host W) (g : hgas) (fk : forks) (fr : frame) (key value : Z) (e : est W) (r : hres unit * est W) : Prop :=
  match h_sstore h (e_w e) (fr_target fr) key value false with
  | (LOk (orig, pres, cold), w) =>
    let v := (orig, pres, value) in
    let c := hg_sstore_static g + hg_sstore_dyn g (fk_istanbul fk) v cold in
    let s := if fk_8037 fk then hg_sstore_state g v else 0 in
    if c + from_gas e s <=? e_gas e
    then r = (HOk tt, settled e c s (if fk_8037 fk then hg_sstore_refill g v else 0) (hg_sstore_refund g (fk_istanbul fk) v) w)
    else exists e', r = (HErr (HB EOutOfGas), e')
  | _ => exists x e', r = (HErr x, e')
  end.
(** SELFDESTRUCT: a new account is paid for when the beneficiary does not exist, from EIP-161 on only if it
    receives something. *)
Definition destroyed {W} (h : host W) (g : hgas) (fk : forks) (fr : frame) (target : Z) (e : est W) (r : hres unit * est W) : Prop :=
  match h_selfdestruct h (e_w e) (fr_target fr) (target mod 2 ^ 160) false with
  | (LOk (i, cold), w) =>
    exists new : bool,
      (new = true <-> sd_target_exists i = false /\ (fk_spurious fk = true -> sd_had_value i = true)) /\
      let c := hg_sd_cost g new cold in
      let s := if fk_8037 fk && new then hg_new_account_state g else 0 in
      if c + from_gas e s <=? e_gas e
      then r = (HErr HDestruct, settled e c s 0 (if sd_destroyed i then 0 else hg_sd_refund g) w)
      else exists e', r = (HErr (HB EOutOfGas), e')
  | _ => exists x e', r = (HErr x, e') /\ x <> HDestruct
  end.
