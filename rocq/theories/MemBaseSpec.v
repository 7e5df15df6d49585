(** Specification of C55: where memory is.

    Memory lives somewhere (its base address) and may be moved whenever it grows, and while another frame
    runs (CALL, CREATE and their variants: all frames share one buffer). It does not move otherwise. *)
From Verif Require Import FlowSpec InstModel.
Open Scope Z_scope.

(** Instructions during which other frames run. *)
Definition yields (op : Z) : Prop := In op [0xf0; 0xf1; 0xf2; 0xf4; 0xf5; 0xfa].

Section Base.
  Context {Y : Type} (prog : list idata) (const : nat -> Z) (dest : Z -> option nat)
          (sem : nat -> list Z -> Y -> option (list Z * Y)) (msize : Y -> Z) (y0 : Y).
  (** Which load of the base each memory access of the compiled code uses: the one of instruction [k]. *)
  Variable source : nat -> option nat.

  (** Executing instruction [i] takes the base from [b] to [b']. *)
  Definition base_moves (i : nat) (y y' : Y) (b b' : Z) : Prop :=
    forall d, nth_error prog i = Some d -> ~ yields (d_op d) -> msize y' = msize y -> b' = b.
  (** What the loads of the base produced: an access that uses its own load reads the base after making
      memory large enough. *)
  Definition loads (i : nat) (b' : Z) (v : nat -> Z) : nat -> Z :=
    match source i with Some k => if (k =? i)%nat then (fun n => if (n =? i)%nat then b' else v n) else v | None => v end.
  (** Executions, with the base and the values loaded so far (unloaded ones are arbitrary). *)
  Inductive base_run : nat -> list Z -> Y -> Z -> (nat -> Z) -> Prop :=
  | base_start b v : base_run 0 [] y0 b v
  | base_step i st y b v j st' y' b' : base_run i st y b v -> evm_step prog const dest sem i st y = Some (j, st', y') ->
      base_moves i y y' b b' -> base_run j st' y' b' (loads i b' v).
End Base.
