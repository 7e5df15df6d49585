(** C48: opcode availability and failures by unavailable opcodes. *)
From Coq Require Import Lia.
From Verif Require Import InfoModel InfoSpec InfoProof SectionsProof OpcodeSpec.
Open Scope Z_scope.

(** C48a. For every hardfork and opcode byte: building the table does not panic; the opcode is unknown
    exactly when revm does not define it, disabled exactly when it is defined but introduced later, and
    otherwise carries revm's static gas (0 for the fully dynamic SSTORE, CREATE and CREATE2). The gas
    table is any table of 16-bit costs; [defined] is any set of opcodes holding those of the EIPs. *)
Theorem C48_availability defined table spec :
  (forall op, 0 <= op < 256 -> 0 <= table op <= 0xFFFF) ->
  (forall op, 0 <= op < 256 -> introduced op <> FRONTIER -> defined op = true) ->
  exists m, make_map defined table spec = Some m /\ forall op, 0 <= op < 256 ->
    oi_unknown (info_of m op) = negb (defined op) /\
    oi_disabled (info_of m op) = defined op && (activation spec <? activation (introduced op)) /\
    (defined op && (activation (introduced op) <=? activation spec) = true ->
     oi_gas (info_of m op) = if (op =? 0x55) || (op =? 0xf0) || (op =? 0xf5) then 0 else table op).
Proof.
  intros H1 H2. destruct (make_map_spec defined table spec H1 H2) as (m & E & Hm). exists m. split; [exact E|]. intros op Hop.
  destruct (Hm op Hop) as (A & B & C). rewrite introduced_order in B. rewrite Z.leb_antisym, introduced_order, <- Z.leb_antisym in C. split; [exact A|]. split; [exact B|]. intros H. cbn [info_of oi_gas]. rewrite (C H).
  unfold contains, FULLY_DYNAMIC. cbn [existsb]. rewrite orb_false_r, orb_assoc, !(Z.eqb_sym op). reflexivity.
Qed.
Print Assumptions C48_availability.

(** C48b. An opcode available in a hardfork is available in every later one. *)
Theorem C48_monotone defined table table' spec spec' m m' op :
  (forall op, 0 <= op < 256 -> 0 <= table op <= 0xFFFF) -> (forall op, 0 <= op < 256 -> 0 <= table' op <= 0xFFFF) ->
  (forall op, 0 <= op < 256 -> introduced op <> FRONTIER -> defined op = true) ->
  activation spec <= activation spec' -> make_map defined table spec = Some m -> make_map defined table' spec' = Some m' -> 0 <= op < 256 ->
  active_of (info_of m) op = true -> active_of (info_of m') op = true.
Proof.
  intros H1 H1' H2 Hs E E' Hop. destruct (make_map_spec defined table spec H1 H2) as (q & Q & Hm). destruct (make_map_spec defined table' spec' H1' H2) as (q' & Q' & Hm').
  assert (q = m) by congruence. assert (q' = m') by congruence. subst. destruct (Hm op Hop) as (A & B & _). destruct (Hm' op Hop) as (A' & B' & _).
  rewrite introduced_order in B, B'. unfold active_of. cbn [info_of oi_unknown oi_disabled]. rewrite A, B, A', B'. destruct (defined op); cbn; [|discriminate]. lia.
Qed.
Print Assumptions C48_monotone.

Definition demo_table (op : Z) : Z := op * 7.
Example C48_table_ex :
  match make_map (fun op => negb (op =? 0x0c)) demo_table LONDON, make_map (fun op => negb (op =? 0x0c)) demo_table SHANGHAI with
  | Some l, Some s => map (fun op => (active_of (info_of l) op, active_of (info_of s) op, oi_gas (info_of s op))) [0x5f; 0x48; 0x0c; 0x55; 0xfa; 0x5e]
                      = [(false, true, 665); (true, true, 504); (false, false, 0); (true, true, 0); (true, true, 1750); (false, false, 658)]
  | _, _ => False
  end.
Proof. vm_compute. reflexivity. Qed.

(** C48c. In a parsed bytecode the instructions of unavailable opcodes, and only those, are marked, with
    no gas and no stack effect; the others carry the static gas of the table. *)
Theorem C48_parsed info stack_io code l : active_of info OP_JUMPDEST = true -> new_insts info stack_io code = Some l ->
  Forall (fun d =>
    (f_disabled (d_flags d) = oi_disabled (info (d_op d)) /\ f_unknown (d_flags d) = oi_unknown (info (d_op d)) \/ d = stop_padding) /\
    (f_disabled (d_flags d) || f_unknown (d_flags d) = true -> d_gas d = 0 /\ d_io d = (0, 0)) /\
    (f_disabled (d_flags d) || f_unknown (d_flags d) = false -> d <> stop_padding -> d_gas d = oi_gas (info (d_op d)))) l.
Proof.
  intros HJ E. eapply Forall_impl; [|exact (parsed_bare _ _ _ _ HJ E)]. cbn. intros d (A & B & C). split; [exact A|]. split; [|exact B].
  intros H. destruct (C H) as (C1 & C2 & _). auto.
Qed.
Print Assumptions C48_parsed.

(** C48d. With gas and stack checks batched into sections, a run still ends in an unavailable opcode
    exactly when the instruction-by-instruction EVM does, with the same reason, the gas left by the
    preceding instructions untouched by the failing one, and whatever the stack holds (the failing
    opcode has no stack check). Hypotheses as for C07; [bare] is what C48c gives for parsed code. *)
Theorem C48_reasons {X R} dyn istanbul extra (sem : nat -> Z -> Z -> X -> outcome X R) l i g h x t f :
  (forall d, In d l -> f_disabled (d_flags d) || f_unknown (d_flags d) = true -> d_gas d = 0 /\ d_io d = (0, 0) /\ d_op d <> OP_JUMPDEST) ->
  unsectioned l -> bodies_ok dyn istanbul extra sem l ->
  (forall i d, nth_error l i = Some d -> d_gas d + extra i <= 65535) -> Z.of_nat (length l) <= 65537 ->
  entry dyn istanbul l i -> 0 <= g -> 0 <= h <= 1024 ->
  run (ref_step_r sem istanbul l) (mkM i g h x) t f <->
  run (comp_step_r sem istanbul extra (construct_sections dyn istanbul extra l)) (mkM i g h x) t f.
Proof.
  intros HB HU HO. apply reasons_agree; try assumption. apply Forall_forall. intros d Hd. exact (HB d Hd).
Qed.
Print Assumptions C48_reasons.

(** PC; PUSH0 (not yet active): fails with the gas PC left. *)
Definition J (op gas inp out : Z) (dis : bool) : idata := mkD op (mkF false false false false dis false false false false) gas (inp, out) 0 true 0 0 (0, 0).
Definition dis_prog : list idata := [J 0x58 2 0 1 false; J 0x5f 0 0 0 true].
Definition dis_sem (i : nat) (g h : Z) (x : unit) : outcome unit unit := if (i =? 0)%nat then ONext 0 0 1 x else OFail.
Example C48_reasons_ex :
  (forall d, In d dis_prog -> f_disabled (d_flags d) || f_unknown (d_flags d) = true -> d_gas d = 0 /\ d_io d = (0, 0) /\ d_op d <> OP_JUMPDEST) /\
  unsectioned dis_prog /\ bodies_ok false true (fun _ => 0) dis_sem dis_prog /\ entry false true dis_prog 0 /\
  run (ref_step_r dis_sem true dis_prog) (mkM 0 2 0 tt) [] (MDone 0 (inr NotActivated) tt).
Proof.
  split; [|split; [|split; [|split]]].
  - intros d [<-|[<-|[]]]; cbn; [discriminate|]. repeat split. discriminate.
  - repeat constructor; cbn; lia.
  - constructor.
    + lia.
    + reflexivity.
    + intros i d g h x sp gv j x' E Hd Hs. unfold dis_sem in Hs. destruct i as [|i]; [|discriminate]. cbn in E, Hs. injection E as <-. injection Hs as <- <- <- <-.
      split; [lia|]. split; [lia|]. split; [|reflexivity]. left. split; [reflexivity|]. eexists. split; [reflexivity|reflexivity].
    + intros i d g h x sp r x' E Hs. unfold dis_sem in Hs. destruct i; discriminate.
    + reflexivity.
  - eexists. split; [reflexivity|]. split; [reflexivity|]. right. exact Logic.I.
  - change ([] : list (mstate unit)) with (([] : list (mstate unit)) ++ []). eapply run_next; [vm_compute; reflexivity|]. eapply run_done. vm_compute. reflexivity.
Qed.
