(** Lemmas about the opcode table and unavailable opcodes. *)
From Coq Require Import Lia FinFun.
From Verif Require Import InfoModel InfoSpec SectionsProof OpcodeSpec ProgramProof.
Open Scope Z_scope.

(** ** Bits. *)
Lemma land_pow2 x n : 0 <= n -> (Z.land x (2 ^ n) =? 0) = negb (Z.testbit x n).
Proof.
  intros Hn. destruct (Z.testbit x n) eqn:E; cbn [negb].
  - apply Z.eqb_neq. intros H. assert (Q : Z.testbit (Z.land x (2 ^ n)) n = false) by (rewrite H; apply Z.bits_0).
    rewrite Z.land_spec, E, Z.pow2_bits_true in Q by assumption. discriminate.
  - apply Z.eqb_eq. apply Z.bits_inj'. intros k Hk. rewrite Z.land_spec, Z.bits_0, Z.pow2_bits_eqb by assumption.
    destruct (Z.eqb_spec n k) as [<-|]; [rewrite E; reflexivity|apply andb_false_r].
Qed.
Lemma small_bit g n : 0 <= g < 65536 -> 16 <= n -> Z.testbit g n = false.
Proof.
  intros Hg Hn. destruct (Z.eq_dec g 0) as [->|]; [apply Z.bits_0|]. apply Z.bits_above_log2; [lia|].
  apply Z.log2_lt_pow2; [lia|]. assert (2 ^ 16 <= 2 ^ n) by (apply Z.pow_le_mono_r; lia). change (2 ^ 16) with 65536 in *. lia.
Qed.
Lemma mask_lor g n : 0 <= g < 65536 -> 16 <= n -> Z.land (Z.lor g (2 ^ n)) I_MASK = g.
Proof.
  intros Hg Hn. change I_MASK with (Z.ones 16). rewrite Z.land_lor_distr_l, !Z.land_ones by lia.
  rewrite (Z.mod_small g) by (change (2 ^ 16) with 65536; lia).
  replace (2 ^ n) with (2 ^ (n - 16) * 2 ^ 16) by (rewrite <- Z.pow_add_r by lia; f_equal; lia). rewrite Z.mod_mul by lia. apply Z.lor_0_r.
Qed.
Lemma mask_small g : 0 <= g < 65536 -> Z.land g I_MASK = g.
Proof. intros Hg. change I_MASK with (Z.ones 16). rewrite Z.land_ones by lia. apply Z.mod_small. change (2 ^ 16) with 65536. lia. Qed.

(** An entry before gating. *)
Definition entry_of (table : Z -> Z) (op : Z) : Z :=
  let fully := contains FULLY_DYNAMIC op in
  let gas := if fully then 0 else table op in
  if fully || contains DYNAMIC_WITH_BASE_GAS op then set_dynamic gas else gas.
Lemma entry_facts table op : 0 <= table op <= I_MASK ->
  is_unknown (entry_of table op) = false /\ is_disabled (entry_of table op) = false /\
  base_gas (entry_of table op) = (if contains FULLY_DYNAMIC op then 0 else table op) /\
  is_unknown (set_disabled (entry_of table op)) = false /\ is_disabled (set_disabled (entry_of table op)) = true.
Proof.
  intros Ht. change I_MASK with 65535 in Ht. unfold entry_of.
  set (g := if contains FULLY_DYNAMIC op then 0 else table op). assert (Hg : 0 <= g < 65536) by (unfold g; destruct (contains _ _); lia).
  assert (HD : forall x, is_disabled (set_disabled x) = true).
  { intros x. unfold is_disabled, set_disabled, I_DISABLED. rewrite land_pow2 by lia. rewrite Z.lor_spec, Z.pow2_bits_true by lia. rewrite orb_true_r. reflexivity. }
  assert (HU : forall x, Z.testbit x 31 = false -> is_unknown x = false).
  { intros x Hx. unfold is_unknown, I_UNKNOWN. apply Z.eqb_neq. intros ->. rewrite Z.pow2_bits_true in Hx by lia. discriminate. }
  destruct (_ || _).
  - unfold set_dynamic. split; [|split; [|split; [|split]]].
    + apply HU. unfold I_DYNAMIC. rewrite Z.lor_spec, small_bit, Z.pow2_bits_false by lia. reflexivity.
    + unfold is_disabled, I_DISABLED, I_DYNAMIC. rewrite land_pow2, Z.lor_spec, small_bit, Z.pow2_bits_false by lia. reflexivity.
    + unfold base_gas, I_DYNAMIC. apply mask_lor; lia.
    + apply HU. unfold set_disabled, I_DISABLED, I_DYNAMIC. rewrite !Z.lor_spec, small_bit, !Z.pow2_bits_false by lia. reflexivity.
    + apply HD.
  - split; [|split; [|split; [|split]]].
    + apply HU. apply small_bit; lia.
    + unfold is_disabled, I_DISABLED. rewrite land_pow2, small_bit by lia. reflexivity.
    + unfold base_gas. apply mask_small; lia.
    + apply HU. unfold set_disabled, I_DISABLED. rewrite Z.lor_spec, small_bit, Z.pow2_bits_false by lia. reflexivity.
    + apply HD.
Qed.

Lemma map_loop defined table l : (forall op, In op l -> 0 <= table op <= I_MASK) -> NoDup l ->
  forall m, exists m', fold_left (map_step defined table) l (Some m) = Some m' /\
    forall op, m' op = if existsb (Z.eqb op) l && defined op then entry_of table op else m op.
Proof.
  intros Ht Hnd. induction l as [|a l IH]; intros m.
  - exists m. split; [reflexivity|]. intros op. reflexivity.
  - cbn [fold_left]. inversion Hnd as [|? ? Hin Hnd']; subst.
    assert (Hs : exists m1, map_step defined table (Some m) a = Some m1 /\ forall op, m1 op = if (op =? a) && defined op then entry_of table op else m op).
    { unfold map_step. destruct (defined a) eqn:Ed; cbn [negb].
      - cbn [contains UNSUPPORTED_OPCODES existsb]. assert (Ha : (I_MASK <? table a) = false) by (apply Z.ltb_ge; apply Ht; left; reflexivity).
        rewrite Ha, andb_false_r. eexists. split; [reflexivity|]. intros op. unfold put. destruct (Z.eqb_spec op a) as [->|]; cbn [andb]; [rewrite Ed; reflexivity|reflexivity].
      - exists m. split; [reflexivity|]. intros op. destruct (Z.eqb_spec op a) as [->|]; cbn [andb]; [rewrite Ed|]; reflexivity. }
    destruct Hs as (m1 & -> & Hm1). destruct (IH (fun op H => Ht op (or_intror H)) Hnd' m1) as (m' & -> & Hm'). exists m'. split; [reflexivity|].
    intros op. rewrite Hm', Hm1. cbn [existsb]. destruct (Z.eqb_spec op a) as [->|]; cbn [orb andb]; [|reflexivity].
    destruct (existsb (Z.eqb a) l) eqn:Ee; cbn [andb]; [|reflexivity]. destruct (defined a); reflexivity.
Qed.

Lemma all_ops op : 0 <= op < 256 -> existsb (Z.eqb op) (map Z.of_nat (seq 0 256)) = true.
Proof.
  intros H. apply existsb_exists. exists op. split; [|apply Z.eqb_refl]. apply in_map_iff. exists (Z.to_nat op). split; [lia|]. apply in_seq. lia.
Qed.

Lemma gate_loop spec gates : NoDup (map fst gates) -> forall m op,
  fold_left (gate_step spec) gates m op =
  match find (fun g => fst g =? op) gates with
  | Some (_, r) => if spec_u8 spec <? spec_u8 r then set_disabled (m op) else m op
  | None => m op
  end.
Proof.
  induction gates as [|[a r] gates IH]; intros Hnd m op; [reflexivity|]. cbn [map fst] in Hnd. inversion Hnd as [|? ? Hin Hnd']; subst.
  cbn [fold_left find fst]. rewrite IH by assumption. cbn [gate_step]. destruct (Z.eqb_spec a op) as [->|Hne].
  - assert (Hf : find (fun g : Z * fork => fst g =? op) gates = None).
    { destruct (find _ gates) as [[b r']|] eqn:E; [|reflexivity]. exfalso. apply find_some in E. destruct E as [E1 E2]. cbn in E2. apply Z.eqb_eq in E2. subst.
      apply Hin. apply in_map_iff. exists (op, r'). split; [reflexivity|assumption]. }
    rewrite Hf. destruct (_ <? _); [unfold put; rewrite Z.eqb_refl|]; reflexivity.
  - assert (Hp : (if spec_u8 spec <? spec_u8 r then put m a (set_disabled (m a)) else m) op = m op).
    { destruct (_ <? _); [|reflexivity]. unfold put. replace (op =? a) with false by lia. reflexivity. }
    rewrite Hp. reflexivity.
Qed.

Lemma introduced_order a b : (spec_u8 a <? spec_u8 b) = (activation a <? activation b).
Proof. destruct a, b; reflexivity. Qed.
Lemma gates_introduced op : 0 <= op < 256 ->
  match find (fun g => fst g =? op) SPEC_GATED_OPCODES with Some (_, r) => spec_u8 r | None => 0 end = spec_u8 (introduced op).
Proof.
  intros H. assert (Q : forallb (fun op => match find (fun g => fst g =? op) SPEC_GATED_OPCODES with Some (_, r) => spec_u8 r | None => 0 end =? spec_u8 (introduced op)) (map Z.of_nat (seq 0 256)) = true)
    by (vm_compute; reflexivity).
  rewrite forallb_forall in Q. apply Z.eqb_eq. apply Q. apply in_map_iff. exists (Z.to_nat op). split; [lia|]. apply in_seq. lia.
Qed.

Lemma spec_nonneg f : 0 <= spec_u8 f.
Proof. destruct f; cbn; lia. Qed.

Lemma make_map_spec defined table spec :
  (forall op, 0 <= op < 256 -> 0 <= table op <= I_MASK) ->
  (forall op, 0 <= op < 256 -> introduced op <> FRONTIER -> defined op = true) ->
  exists m, make_map defined table spec = Some m /\ forall op, 0 <= op < 256 ->
    is_unknown (m op) = negb (defined op) /\
    is_disabled (m op) = defined op && (spec_u8 spec <? spec_u8 (introduced op)) /\
    (defined op && (spec_u8 (introduced op) <=? spec_u8 spec) = true -> base_gas (m op) = if contains FULLY_DYNAMIC op then 0 else table op).
Proof.
  intros Ht Hd. unfold make_map.
  destruct (map_loop defined table (map Z.of_nat (seq 0 256))) with (m := fun _ : Z => I_UNKNOWN) as (m & -> & Hm).
  { intros op Hin. apply in_map_iff in Hin. destruct Hin as (k & <- & Hk). apply in_seq in Hk. apply Ht. lia. }
  { apply Injective_map_NoDup; [intros a b; lia|apply seq_NoDup]. }
  eexists. split; [reflexivity|]. intros op Hop. rewrite gate_loop.
  2:{ vm_compute. repeat constructor; cbn; intros H; repeat destruct H as [H|H]; try discriminate; assumption. }
  rewrite Hm, all_ops by assumption. cbn [andb].
  pose proof (gates_introduced op Hop) as HI. pose proof (Hd op Hop) as Hdo.
  destruct (find _ _) as [[b r]|].
  - rewrite <- HI. destruct (Z.eq_dec (spec_u8 r) 0) as [E0|E0].
    + rewrite E0. assert (H0 : spec_u8 spec <? 0 = false) by (pose proof (spec_nonneg spec); lia). rewrite H0. rewrite andb_false_r.
      destruct (defined op) eqn:Ed; cbn [andb negb].
      * destruct (entry_facts table op (Ht op Hop)) as (A & B & C & _). rewrite A, B. repeat split. intros _. exact C.
      * repeat split; try reflexivity. discriminate.
    + assert (EF : introduced op <> FRONTIER) by (intros X; apply E0; rewrite HI, X; reflexivity). specialize (Hdo EF). rewrite Hdo. cbn [andb negb]. destruct (entry_facts table op (Ht op Hop)) as (A & B & C & D & E).
      destruct (Z.ltb_spec (spec_u8 spec) (spec_u8 r)).
      * rewrite D, E. repeat split. intros H'. lia.
      * rewrite A, B. repeat split. intros _. exact C.
  - rewrite <- HI. assert (H0 : spec_u8 spec <? 0 = false) by (pose proof (spec_nonneg spec); lia). rewrite H0. rewrite andb_false_r.
    destruct (defined op) eqn:Ed; cbn [andb negb].
    + destruct (entry_facts table op (Ht op Hop)) as (A & B & C & _). rewrite A, B. repeat split. intros _. exact C.
    + repeat split; try reflexivity. discriminate.
Qed.

(** ** Reasons: an unavailable opcode is like a STOP with its own result. *)
Definition is_unavailable (d : idata) : bool := f_disabled (d_flags d) || f_unknown (d_flags d).
Definition as_stop (d : idata) : idata :=
  if is_unavailable d then
    let f := d_flags d in
    mkD 0 (mkF (f_static f) (f_invalid f) (f_multi f) (f_constcond f) false false (f_noop f) (f_head f) (f_dead f))
        (d_gas d) (d_io d) (d_data d) (d_reach d) (d_target d) (d_gas_section d) (d_stack_section d)
  else d.

Definition bare (d : idata) : Prop := is_unavailable d = true -> d_gas d = 0 /\ d_io d = (0, 0) /\ d_op d <> OP_JUMPDEST.

Section Reasons.
  Context {X R : Type}.
  Variables (dyn istanbul : bool) (extra : nat -> Z) (sem : nat -> Z -> Z -> X -> outcome X R) (l : list idata).
  Hypothesis BARE : Forall bare l.

  Definition sem_r (i : nat) (g h : Z) (x : X) : outcome X (R + reason) :=
    match nth_error l i with
    | Some d =>
        match unavailable d with
        | Some r => OStop 0 (inr r) x
        | None => match sem i g h x with ONext a b j x' => ONext a b j x' | OStop a r x' => OStop a (inl r) x' | OFail => OFail end
        end
    | None => OFail
    end.

  Lemma as_stop_dead d : is_dead (as_stop d) = is_dead d.
  Proof. unfold as_stop. destruct (is_unavailable d); reflexivity. Qed.
  Lemma as_stop_io d : d_io (as_stop d) = d_io d.
  Proof. unfold as_stop. destruct (is_unavailable d); reflexivity. Qed.
  Lemma as_stop_gas d : d_gas (as_stop d) = d_gas d.
  Proof. unfold as_stop. destruct (is_unavailable d); reflexivity. Qed.
  Lemma as_stop_ends d : ends_section istanbul (as_stop d) = ends_section istanbul d.
  Proof.
    unfold as_stop. destruct (is_unavailable d) eqn:E; [|reflexivity]. unfold is_unavailable in E.
    unfold ends_section, is_branching, is_diverging. cbn. destruct (f_disabled (d_flags d)), (f_unknown (d_flags d)); try discriminate E; rewrite ?orb_true_r; cbn; rewrite ?orb_true_r; reflexivity.
  Qed.
  Lemma as_stop_jd d : bare d -> is_reachable_jumpdest dyn (as_stop d) = is_reachable_jumpdest dyn d.
  Proof.
    intros HB. unfold as_stop. destruct (is_unavailable d) eqn:E; [|reflexivity]. destruct (HB E) as (_ & _ & Ho).
    unfold is_reachable_jumpdest, is_jumpdest. cbn [d_op]. replace (d_op d =? OP_JUMPDEST) with false by lia. reflexivity.
  Qed.

  Lemma stops_as_stop ll : Forall bare ll -> stops dyn (map as_stop ll) = stops dyn ll.
  Proof.
    induction 1 as [|d ll Hb Hl IH]; [reflexivity|]. cbn [map]. destruct (is_dead d) eqn:E.
    - rewrite stops_cons_dead by (rewrite as_stop_dead; assumption). rewrite stops_cons_dead by assumption. exact IH.
    - rewrite stops_cons_live by (rewrite as_stop_dead; assumption). rewrite stops_cons_live by assumption. apply as_stop_jd. assumption.
  Qed.
  Lemma sums_as_stop ll : Forall bare ll -> forall i,
    sec_sum dyn istanbul extra i (map as_stop ll) = sec_sum dyn istanbul extra i ll /\
    sec_need dyn istanbul (map as_stop ll) = sec_need dyn istanbul ll /\
    sec_growth dyn istanbul (map as_stop ll) = sec_growth dyn istanbul ll.
  Proof.
    induction 1 as [|d ll Hb Hl IH]; intros i; [repeat split|]. cbn [map sec_sum sec_need sec_growth].
    unfold delta. rewrite as_stop_dead, as_stop_io, as_stop_gas, as_stop_ends, stops_as_stop by assumption.
    destruct (IH (S i)) as (A & B & C). rewrite A, B, C. repeat split.
  Qed.
  Lemma mark_as_stop d a b c : as_stop (mark d a b c) = mark (as_stop d) a b c.
  Proof. unfold mark, as_stop, is_unavailable. destruct (clamp_gas a =? 0); cbn; destruct (_ || _); reflexivity. Qed.
  Lemma go_as_stop ll : Forall bare ll -> forall fr i, go dyn istanbul extra fr i (map as_stop ll) = map as_stop (go dyn istanbul extra fr i ll).
  Proof.
    induction 1 as [|d ll Hb Hl IH]; intros fr i; [reflexivity|].
    cbn [map go]. rewrite as_stop_dead. destruct (is_dead d); cbn [map]; [rewrite IH; reflexivity|].
    rewrite as_stop_jd, as_stop_ends, IH by assumption. f_equal.
    destruct (fr || _); [|reflexivity].
    destruct (sums_as_stop (d :: ll) ltac:(constructor; assumption) i) as (A & B & C). cbn [map] in A, B, C. rewrite A, B, C. symmetry. apply mark_as_stop.
  Qed.

  Lemma unavailable_some d r : unavailable d = Some r -> is_unavailable d = true.
  Proof. unfold unavailable, is_unavailable. destruct (f_disabled _); [reflexivity|]. destruct (f_unknown _); [reflexivity|discriminate]. Qed.
  Lemma unavailable_none d : unavailable d = None -> is_unavailable d = false.
  Proof. unfold unavailable, is_unavailable. destruct (f_disabled _); [discriminate|]. destruct (f_unknown _); [discriminate|reflexivity]. Qed.

  Lemma unavailable_ends d : is_unavailable d = true -> ends_section istanbul d = true.
  Proof.
    unfold is_unavailable, ends_section, is_branching, is_diverging. destruct (f_disabled _), (f_unknown _); try discriminate; intros _; rewrite ?orb_true_r; cbn; rewrite ?orb_true_r; reflexivity.
  Qed.

  (** Two machines with the same steps have the same runs. *)
  Lemma run_ext {Y Q} (s1 s2 : mstate Y -> list (mstate Y) * mres Y Q) : (forall s, s1 s = s2 s) -> forall s t f, run s1 s t f <-> run s2 s t f.
  Proof.
    intros H s t f. split; intros HR; induction HR as [s o E|s o g r x E|s o s' t f E HR IH].
    - apply run_fail. rewrite <- H. assumption.
    - apply run_done. rewrite <- H. assumption.
    - eapply run_next; [rewrite <- H; eassumption|assumption].
    - apply run_fail. rewrite H. assumption.
    - apply run_done. rewrite H. assumption.
    - eapply run_next; [rewrite H; eassumption|assumption].
  Qed.

  Lemma ref_r_eq s : 0 <= m_len s <= 1024 -> 0 <= m_gas s -> ref_step_r sem istanbul l s = ref_step sem_r istanbul (map as_stop l) s.
  Proof.
    intros Hh Hg. unfold ref_step_r, ref_step. rewrite nth_error_map. destruct (nth_error l (m_i s)) as [d|] eqn:E; [|reflexivity]. cbn [option_map].
    assert (HB : bare d) by (rewrite Forall_forall in BARE; apply BARE; eapply nth_error_In; eassumption).
    unfold as_stop. destruct (is_unavailable d) eqn:EU.
    - destruct (HB EU) as (H1 & H2 & H3). cbn [d_flags f_disabled f_unknown orb d_gas d_io d_op]. rewrite H1, H2. cbn [fst snd].
      replace (m_gas s <? 0) with false by lia. replace (m_len s <? 0) with false by lia. replace (1024 <? m_len s - 0 + 0) with false by lia.
      unfold body. cbn [d_op m_i]. unfold sem_r. rewrite E. unfold unavailable, is_unavailable in *. 
      destruct (f_disabled (d_flags d)); [|destruct (f_unknown (d_flags d)); [|discriminate]]; cbn [observes_gas existsb orb]; 
        change (observes_gas istanbul 0) with ((0 =? 85) && istanbul); cbn [Z.eqb andb]; replace (_ <? 0 - 0) with false by lia; rewrite !Z.sub_0_r; reflexivity.
    - assert (EU' := EU). unfold is_unavailable in EU. apply orb_false_iff in EU. destruct EU as [E1 E2]. rewrite E1, E2. cbn [orb].
      destruct (_ <? d_gas d); [reflexivity|]. destruct (_ <? fst _); [reflexivity|]. destruct (1024 <? _); [reflexivity|].
      unfold body. unfold sem_r. rewrite E. unfold unavailable. rewrite E1, E2.
      destruct (sem _ _ _ _); cbn; try reflexivity; destruct (_ <? _); reflexivity.
  Qed.

  Hypothesis UNS : unsectioned l.
  Hypothesis BOK : bodies_ok dyn istanbul extra sem l.

  Lemma cs_go : construct_sections dyn istanbul extra l = go dyn istanbul extra true 0 l.
  Proof. apply construct_sections_go. eapply Forall_impl; [|exact UNS]. cbn. unfold io_ok. intros a H. lia. Qed.
  Lemma cs_as_stop : construct_sections dyn istanbul extra (map as_stop l) = map as_stop (construct_sections dyn istanbul extra l).
  Proof.
    rewrite cs_go, <- go_as_stop by assumption. apply construct_sections_go. rewrite Forall_map.
    eapply Forall_impl; [|exact UNS]. cbn. unfold io_ok. intros a H. rewrite as_stop_io. lia.
  Qed.

  (** An unavailable instruction carries no check. *)
  Lemma no_check i d : nth_error (construct_sections dyn istanbul extra l) i = Some d ->
    exists d0, nth_error l i = Some d0 /\ d_flags d = (if f_head (d_flags d) then d_flags (set_head d0) else d_flags d0) /\ d_op d = d_op d0 /\ d_io d = d_io d0 /\
      (is_unavailable d0 = true -> d_gas_section d = 0 /\ (f_head (d_flags d) = true -> d_stack_section d = (0, 0))).
  Proof.
    rewrite cs_go, go_nth. destruct (nth_error l i) as [d0|] eqn:E; [|discriminate]. intros H. injection H as <-. exists d0. split; [reflexivity|].
    assert (HU : d_gas_section d0 = 0 /\ f_head (d_flags d0) = false).
    { pose proof UNS as HU. unfold unsectioned in HU. rewrite Forall_forall in HU. specialize (HU d0 (nth_error_In _ _ E)). tauto. }
    destruct HU as [HU1 HU2].
    destruct (is_dead d0) eqn:Ed; [rewrite HU2; repeat split; auto; discriminate|].
    destruct (_ || _); [|rewrite HU2; repeat split; auto; discriminate].
    split; [|split; [|split]].
    1-3: unfold mark; destruct (_ =? 0); reflexivity.
    intros HUn. assert (HB : bare d0) by (rewrite Forall_forall in BARE; apply BARE; eapply nth_error_In; eassumption).
    destruct (HB HUn) as (G0 & IO0 & _). pose proof (unavailable_ends d0 HUn) as He.
    assert (Hx : extra i = 0) by (eapply bo_extra_end; eassumption).
    assert (Hsk : exists r, skipn i l = d0 :: r).
    { clear -E. revert i E. induction l as [|a l' IH]; intros [|i] E; try discriminate; [injection E as ->; eexists; reflexivity|]. cbn. apply IH. exact E. }
    destruct Hsk as [r ->]. cbn [sec_sum sec_need sec_growth]. unfold delta. rewrite Ed, He, G0, IO0. cbn [Nat.add]. rewrite Hx. cbn [orb fst snd].
    split; [cbn; assumption|]. intros _. reflexivity.
  Qed.

  (** Live states with gas and stack in range. *)
  Definition in_range (s : mstate X) : Prop :=
    0 <= m_gas s /\ 0 <= m_len s <= 1024 /\ exists d, nth_error l (m_i s) = Some d /\ is_dead d = false.
  Definition paid (s : mstate X) : Prop := 0 <= m_gas s /\ exists d, nth_error l (m_i s) = Some d /\ is_dead d = false.

  Lemma run_ext_on {Y Q} (P : mstate Y -> Prop) (s1 s2 : mstate Y -> list (mstate Y) * mres Y Q) :
    (forall s, P s -> s1 s = s2 s) -> (forall s o s', P s -> s1 s = (o, MNext s') -> P s') ->
    forall s t f, P s -> run s1 s t f <-> run s2 s t f.
  Proof.
    intros H HP s t f Hs. split; intros HR; revert Hs; induction HR as [s o E|s o g r x E|s o s' t f E HR IH]; intros Hs.
    - apply run_fail. rewrite <- H; assumption.
    - apply run_done. rewrite <- H; assumption.
    - eapply run_next; [rewrite <- H; eassumption|apply IH; eapply HP; eassumption].
    - apply run_fail. rewrite H; assumption.
    - apply run_done. rewrite H; assumption.
    - rewrite <- H in E by assumption. eapply run_next; [eassumption|apply IH; eapply HP; eassumption].
  Qed.

  Lemma goes_live i j d : goes_to dyn istanbul l i j d -> exists d', nth_error l j = Some d' /\ is_dead d' = false.
  Proof. intros [(-> & d' & A & B)|((d' & A & B & _) & _)]; eauto. Qed.

  Lemma ref_r_in s o s' : in_range s -> ref_step_r sem istanbul l s = (o, MNext s') -> in_range s'.
  Proof.
    intros (Hg & Hh & d & E & Hd). unfold ref_step_r, ref_step. rewrite E.
    destruct (f_disabled _); [discriminate|]. destruct (f_unknown _); [discriminate|]. cbn [orb].
    destruct (Z.ltb_spec (m_gas s) (d_gas d)); [discriminate|]. destruct (Z.ltb_spec (m_len s) (fst (d_io d))); [discriminate|].
    destruct (Z.ltb_spec 1024 (m_len s - fst (d_io d) + snd (d_io d))); [discriminate|].
    unfold body. destruct (sem _ _ _ _) as [sp gv j x|sp r x|] eqn:Es; try discriminate.
    - destruct (Z.ltb_spec (m_gas s - d_gas d) (sp - 0)); [discriminate|]. intros Q. injection Q as <- <-.
      destruct (bo_next _ _ _ _ _ BOK _ _ _ _ _ _ _ _ _ E Hd Es) as (_ & Hgv & Hgo & _).
      assert (HU : 0 <= snd (d_io d)).
      { pose proof UNS as HU. unfold unsectioned in HU. rewrite Forall_forall in HU. specialize (HU d (nth_error_In _ _ E)). tauto. }
      unfold in_range. cbn [m_gas m_len m_i]. split; [lia|]. split; [lia|]. eapply goes_live; eassumption.
    - destruct (_ <? _); discriminate.
  Qed.

  Lemma comp_r_in s o s' : paid s -> comp_step_r sem istanbul extra (construct_sections dyn istanbul extra l) s = (o, MNext s') -> paid s'.
  Proof.
    intros (Hg & d0 & E0 & Hd). unfold comp_step_r, comp_step. destruct (nth_error (construct_sections dyn istanbul extra l) (m_i s)) as [d|] eqn:E; [|discriminate].
    destruct (unavailable d); [discriminate|]. destruct (prologue d _ _) as [g1|] eqn:Ep; [|discriminate].
    unfold body. destruct (sem _ _ _ _) as [sp gv j x|sp r x|] eqn:Es; try discriminate.
    - destruct (Z.ltb_spec g1 (sp - extra (m_i s))); [discriminate|]. intros Q. injection Q as <- <-.
      destruct (bo_next _ _ _ _ _ BOK _ _ _ _ _ _ _ _ _ E0 Hd Es) as (_ & Hgv & Hgo & _).
      unfold paid. cbn [m_gas m_i]. split; [lia|]. eapply goes_live; eassumption.
    - destruct (_ <? _); discriminate.
  Qed.

  Lemma comp_r_eq s : paid s ->
    comp_step_r sem istanbul extra (construct_sections dyn istanbul extra l) s =
    comp_step sem_r istanbul extra (map as_stop (construct_sections dyn istanbul extra l)) s.
  Proof.
    intros (Hg & _). unfold comp_step_r, comp_step. rewrite nth_error_map.
    destruct (nth_error (construct_sections dyn istanbul extra l) (m_i s)) as [d|] eqn:E; [|reflexivity]. cbn [option_map].
    destruct (no_check _ _ E) as (d0 & E0 & Hf & Ho & Hio & Hn).
    assert (Hun : unavailable d0 = unavailable d) by (unfold unavailable; rewrite Hf; destruct (f_head (d_flags d)); reflexivity).
    destruct (unavailable d) as [r|] eqn:Eu.
    - assert (EU : is_unavailable d = true) by (eapply unavailable_some; eassumption).
      destruct (Hn (unavailable_some _ _ Hun)) as [Hn1 Hn2]. unfold as_stop. rewrite EU. unfold prologue.
      cbn [d_flags f_disabled f_unknown d_gas_section d_stack_section f_head]. rewrite Hn1. replace (m_gas s <? 0) with false by lia.
      assert (Hc : f_head (d_flags d) && negb (check_stack_bounds (d_stack_section d) (m_len s)) = false).
      { destruct (f_head (d_flags d)); [|reflexivity]. rewrite Hn2 by reflexivity. reflexivity. }
      rewrite Hc. unfold body. cbn [d_op]. unfold sem_r. rewrite E0, Hun.
      assert (Hx : extra (m_i s) = 0) by (eapply bo_extra_end; [eassumption|eassumption|]; apply unavailable_ends; eapply unavailable_some; eassumption).
      rewrite Hx. replace (m_gas s - 0 <? 0 - 0) with false by lia. rewrite !Z.sub_0_r. reflexivity.
    - assert (EU : is_unavailable d = false) by (apply unavailable_none; assumption).
      unfold as_stop. rewrite EU. destruct (prologue d _ _) as [g1|]; [|reflexivity].
      unfold body, sem_r. rewrite E0, Hun. destruct (sem _ _ _ _); cbn; try reflexivity; destruct (_ <? _); reflexivity.
  Qed.

  Lemma prev_as_stop k : prev_live (map as_stop l) k = option_map as_stop (prev_live l k).
  Proof.
    unfold prev_live. rewrite firstn_map. change (@None idata) with (option_map as_stop None) at 1. generalize (@None idata).
    induction (firstn k l) as [|d r IH]; intros o; [reflexivity|]. cbn [map fold_left]. rewrite <- IH. f_equal. rewrite as_stop_dead. destruct (is_dead d); reflexivity.
  Qed.
  Lemma next_as_stop k : next_live (map as_stop l) k = option_map as_stop (next_live l k).
  Proof.
    unfold next_live. rewrite skipn_map. generalize (skipn (S k) l). induction l0 as [|d r IH]; [reflexivity|]. cbn [map find]. rewrite as_stop_dead. destruct (negb (is_dead d)); [reflexivity|exact IH].
  Qed.
  Lemma entry_as_stop k : entry dyn istanbul l k -> entry dyn istanbul (map as_stop l) k.
  Proof.
    intros (d & E & Hd & Hk). exists (as_stop d). rewrite nth_error_map, E, as_stop_dead. split; [reflexivity|]. split; [assumption|].
    assert (HB : bare d) by (rewrite Forall_forall in BARE; apply BARE; eapply nth_error_In; eassumption).
    rewrite as_stop_jd, prev_as_stop by assumption. destruct Hk as [Hk|Hk]; [left; exact Hk|right]. destruct (prev_live l k); cbn [option_map]; [rewrite as_stop_ends|]; assumption.
  Qed.
  Lemma goes_as_stop i j d : goes_to dyn istanbul l i j d -> goes_to dyn istanbul (map as_stop l) i j (as_stop d).
  Proof.
    intros [(Hj & d' & E & Hd)|(He & Hn)].
    - left. split; [assumption|]. exists (as_stop d'). rewrite nth_error_map, E, as_stop_dead. split; [reflexivity|assumption].
    - right. split; [apply entry_as_stop; assumption|]. rewrite as_stop_ends, next_as_stop. destruct Hn as [Hn|Hn]; [left; assumption|right].
      destruct (next_live l i) as [d'|] eqn:E; cbn [option_map]; [|constructor]. rewrite as_stop_jd; [assumption|].
      unfold next_live in E. apply find_some in E. destruct E as [E _]. rewrite Forall_forall in BARE. apply BARE.
      rewrite <- (firstn_skipn (S i) l). apply in_or_app. right. exact E.
  Qed.

  Lemma bodies_as_stop : bodies_ok dyn istanbul extra sem_r (map as_stop l).
  Proof.
    destruct BOK as [B1 B2 B3 B4 B5]. constructor.
    - assumption.
    - intros i d E He. rewrite nth_error_map in E. destruct (nth_error l i) as [d0|] eqn:E0; [|discriminate]. injection E as <-. rewrite as_stop_ends in He. eapply B2; eassumption.
    - intros i d g h x sp gv j x' E Hd Hs. rewrite nth_error_map in E. unfold sem_r in Hs. destruct (nth_error l i) as [d0|] eqn:E0; [|discriminate]. injection E as <-.
      rewrite as_stop_dead in Hd. destruct (unavailable d0) eqn:Eu; [discriminate|]. apply unavailable_none in Eu.
      destruct (sem i g h x) as [a b c e|a r e|] eqn:Es; try discriminate. injection Hs as -> -> -> ->.
      destruct (B3 _ _ _ _ _ _ _ _ _ E0 Hd Es) as (A & B & C & D). split; [assumption|]. split; [assumption|]. split; [apply goes_as_stop; assumption|].
      unfold as_stop. rewrite Eu. assumption.
    - intros i d g h x sp r x' E Hs. rewrite nth_error_map in E. unfold sem_r in Hs. destruct (nth_error l i) as [d0|] eqn:E0; [|discriminate]. injection E as <-.
      destruct (unavailable d0) eqn:Eu.
      + injection Hs as <- <- <-. apply unavailable_some in Eu. rewrite (B2 _ _ E0 (unavailable_ends _ Eu)). split; [lia|]. unfold as_stop. rewrite Eu. reflexivity.
      + apply unavailable_none in Eu. destruct (sem i g h x) as [a b c e|a r' e|] eqn:Es; try discriminate. injection Hs as -> <- ->.
        destruct (B4 _ _ _ _ _ _ _ _ E0 Es). split; [assumption|]. unfold as_stop. rewrite Eu. assumption.
    - intros i d g g' h x E Hob. rewrite nth_error_map in E. unfold sem_r. destruct (nth_error l i) as [d0|] eqn:E0; [|discriminate]. injection E as <-.
      destruct (unavailable d0) eqn:Eu; [reflexivity|]. apply unavailable_none in Eu. unfold as_stop in Hob. rewrite Eu in Hob. rewrite (B5 _ _ g g' h x E0 Hob). reflexivity.
  Qed.

  Lemma reasons_agree i g h x t f :
    (forall i d, nth_error l i = Some d -> d_gas d + extra i <= 65535) -> Z.of_nat (length l) <= 65537 ->
    entry dyn istanbul l i -> 0 <= g -> 0 <= h <= 1024 ->
    run (ref_step_r sem istanbul l) (mkM i g h x) t f <->
    run (comp_step_r sem istanbul extra (construct_sections dyn istanbul extra l)) (mkM i g h x) t f.
  Proof.
    intros Hc Hl He Hg Hh. pose proof He as (d & E & Hd & _).
    rewrite (run_ext_on in_range _ (ref_step sem_r istanbul (map as_stop l))).
    2:{ intros s (A & B & _). apply ref_r_eq; assumption. }
    2:{ intros s o s'. apply ref_r_in. }
    2:{ repeat split; cbn; try lia. exists d. auto. }
    rewrite (run_ext_on paid (comp_step_r _ _ _ _) (comp_step sem_r istanbul extra (map as_stop (construct_sections dyn istanbul extra l)))).
    2:{ intros s. apply comp_r_eq. }
    2:{ intros s o s'. apply comp_r_in. }
    2:{ repeat split; cbn; try lia. exists d. auto. }
    rewrite <- cs_as_stop. apply sections_unobservable.
    - unfold unsectioned. rewrite Forall_map. eapply Forall_impl; [|exact UNS]. cbn. intros a (A & B & C & D). unfold as_stop. destruct (is_unavailable a); cbn; tauto.
    - apply bodies_as_stop.
    - intros k d' E'. rewrite nth_error_map in E'. destruct (nth_error l k) as [d0|] eqn:E0; [|discriminate]. injection E' as <-. rewrite as_stop_gas. apply Hc. assumption.
    - rewrite map_length. assumption.
    - apply entry_as_stop. assumption.
    - assumption.
    - assumption.
  Qed.
End Reasons.

(** ** Instructions of a parsed bytecode. *)
Lemma parsed_bare info stack_io code l : active_of info OP_JUMPDEST = true ->
  new_insts info stack_io code = Some l ->
  Forall (fun d => (f_disabled (d_flags d) = oi_disabled (info (d_op d)) /\ f_unknown (d_flags d) = oi_unknown (info (d_op d)) \/ d = stop_padding) /\
                   (is_unavailable d = false -> d <> stop_padding -> d_gas d = oi_gas (info (d_op d))) /\ bare d) l.
Proof.
  unfold new_insts. intros HJ. destruct (parse _ _ _) as [st|] eqn:E; [|discriminate]. intros Q. injection Q as <-.
  pose proof (parse_inst_inv _ _ _ _ E) as (_ & _ & _ & _ & _ & Hio & _).
  rewrite Forall_forall. intros d Hin. apply In_nth_error in Hin. destruct Hin as [i Hin].
  destruct (pad_nth _ _ _ _ Hin) as [(ins & Hn & ->)|[_ ->]].
  - destruct (Hio ins (nth_error_In _ _ Hn)) as (Ha & imm & Hi & _).
    unfold bare, is_unavailable, idata_of. cbn. rewrite Ha, Hi. unfold active_of.
    split; [left; auto|]. split.
    + intros H _. apply orb_false_iff in H. destruct H as [-> ->]. reflexivity.
    + intros H. destruct (oi_disabled (info (i_op ins))) eqn:E1, (oi_unknown (info (i_op ins))) eqn:E2; try discriminate H; cbn; (split; [reflexivity|]; split; [reflexivity|]);
        intros HO; rewrite HO in *; unfold active_of in HJ; rewrite E1, E2 in HJ; discriminate.
  - split; [right; reflexivity|]. split; [congruence|]. intros H. discriminate.
Qed.
