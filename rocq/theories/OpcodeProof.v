From Verif Require Import OpcodeModel OpcodeSpec.
From Coq Require Import ZifyBool ZifyNat ZifyN.
Open Scope Z_scope.

(** ** Iteration (C01) *)

Lemma get_prefix_some len l i :
  get_prefix len l = Some i -> i = firstn len l /\ length i = len /\ (len <= length l)%nat.
Proof.
  unfold get_prefix. destruct (len <=? length l)%nat eqn:E; intros H; inversion H; subst.
  apply Nat.leb_le in E. rewrite firstn_length. repeat split; lia.
Qed.

Lemma get_prefix_none len l : get_prefix len l = None -> (length l < len)%nat.
Proof. unfold get_prefix. destruct (len <=? length l)%nat eqn:E; intros H; [discriminate|].
  apply Nat.leb_gt in E; lia. Qed.

Definition wf_item (tbl : optable) (o : opcode) : Prop :=
  match immediate o with
  | Some i => tbl (opc o) = true /\ length i = min_imm_len (opc o) /\ (0 < length i)%nat
  | None => tbl (opc o) = false \/ min_imm_len (opc o) = 0%nat
  end.

Lemma iter_next_cases tbl b rest o rest' :
  iter_next tbl (b :: rest) = Some (o, rest') ->
  opc o = b /\
  ((wf_item tbl o /\ rest = (match immediate o with Some i => i | None => [] end) ++ rest')
   \/ (immediate o = None /\ rest' = [] /\ tbl b = true /\ (length rest < min_imm_len b)%nat)).
Proof.
  unfold iter_next. destruct (tbl b) eqn:Ht.
  - destruct (0 <? min_imm_len b)%nat eqn:Hl.
    + apply Nat.ltb_lt in Hl.
      intros H; inversion H; subst; clear H. cbn. split; [reflexivity|].
      destruct (get_prefix (min_imm_len b) rest) as [i|] eqn:Hp.
      * apply get_prefix_some in Hp as (-> & Hi & Hle). left.
        unfold wf_item; cbn. rewrite Hi, firstn_skipn. repeat split; auto.
      * apply get_prefix_none in Hp. right. repeat split; auto.
        apply skipn_all2; lia.
    + apply Nat.ltb_ge in Hl.
      intros H; inversion H; subst; clear H. cbn. split; [reflexivity|]. left.
      split; [|reflexivity]. unfold wf_item; cbn. right; lia.
  - intros H; inversion H; subst; clear H. cbn. split; [reflexivity|]. left.
    split; [|reflexivity]. unfold wf_item; cbn. left; auto.
Qed.

Lemma iter_next_none tbl rest : iter_next tbl rest = None -> rest = [].
Proof.
  destruct rest as [|b rest]; [reflexivity|]. unfold iter_next.
  destruct (tbl b); [destruct (0 <? min_imm_len b)%nat|]; intros H; discriminate H.
Qed.

Fixpoint pcs_ok (pc : nat) (its : list (nat * opcode)) : Prop :=
  match its with
  | [] => True
  | it :: its' => fst it = pc /\ pcs_ok (pc + length (item_bytes it)) its'
  end.

Lemma iter_next_shrinks tbl rest o rest' :
  iter_next tbl rest = Some (o, rest') -> (length rest' < length rest)%nat.
Proof.
  unfold iter_next; destruct rest as [|b rest1]; [discriminate|].
  destruct (tbl b); [destruct (0 <? min_imm_len b)%nat|]; intros H; inversion H; subst;
    cbn [length]; rewrite ?skipn_length; lia.
Qed.

Lemma collect_total fuel tbl rest pc :
  (length rest <= fuel)%nat -> exists its, collect fuel tbl (rest, pc) = Some its.
Proof.
  revert rest pc. induction fuel as [|fuel IH]; intros rest pc Hl.
  - destruct rest; [|cbn in Hl; lia]. cbn. eauto.
  - cbn [collect]. unfold iter_next_pc; cbn [fst snd].
    destruct (iter_next tbl rest) as [[o rest']|] eqn:E; [|eauto].
    apply iter_next_shrinks in E.
    destruct (IH rest' (pc + 1 + imm_length o)%nat) as [its Hits]; [lia|].
    rewrite Hits. eauto.
Qed.

Definition trunc_ok (tbl : optable) (its : list (nat * opcode)) (tail : list Z) : Prop :=
  tail = [] \/
  exists init pc op, its = init ++ [(pc, mkOpcode op None)] /\ tbl op = true /\
    (length tail < min_imm_len op)%nat.

Lemma collect_spec fuel : forall tbl rest pc its,
  collect fuel tbl (rest, pc) = Some its ->
  exists tail, rest = flat_map item_bytes its ++ tail /\ pcs_ok pc its /\
    trunc_ok tbl its tail /\
    (forall it, In it its -> wf_item tbl (snd it) \/
       (exists init, its = init ++ [it]) /\ immediate (snd it) = None).
Proof.
  induction fuel as [|fuel IH]; intros tbl rest pc its; cbn [collect];
    unfold iter_next_pc; cbn [fst snd].
  - destruct (iter_next tbl rest) as [[o rest']|] eqn:E; [intros H; discriminate H|].
    intros H; inversion H; subst. exists []. apply iter_next_none in E; subst rest.
    cbn. repeat split; auto. { left; reflexivity. } intros it [].
  - destruct (iter_next tbl rest) as [[o rest']|] eqn:E.
    + destruct (collect fuel tbl (rest', _)) as [its'|] eqn:Ec; [|intros H; discriminate H].
      intros H; inversion H; subst; clear H.
      destruct rest as [|b rest1]; [discriminate|].
      apply iter_next_cases in E as (Hop & [[Hwf Hrest] | (Hnone & Hrest' & Ht & Hlen)]).
      * apply IH in Ec as (tail & Htail & Hpcs & Htr & Hall).
        exists tail. split; [|split; [|split]].
        -- cbn [flat_map]. unfold item_bytes at 1; cbn [snd]. rewrite Hop.
           rewrite <- app_assoc, <- Htail. cbn. congruence.
        -- cbn [pcs_ok]. split; [reflexivity|].
           unfold item_bytes; cbn [snd length].
           replace (pc + S _)%nat with (pc + 1 + imm_length o)%nat; [exact Hpcs|].
           unfold imm_length; destruct (immediate o); cbn; lia.
        -- destruct Htr as [->|(init & pc1 & op1 & -> & H1 & H2)]; [left; auto|right].
           exists ((pc, o) :: init), pc1, op1. auto.
        -- intros it [<-|Hin]; [left; auto|].
           destruct (Hall it Hin) as [?|[[init Hinit] ?]]; [auto|right].
           split; [exists ((pc, o) :: init); cbn; congruence|auto].
      * subst rest'. destruct fuel as [|f]; cbn in Ec; inversion Ec; subst its'; clear Ec.
        all: exists rest1; split; [|split; [|split]].
        all: try (unfold item_bytes; cbn; rewrite Hnone, ?Hop; reflexivity).
        all: try (cbn; split; [reflexivity|exact I]).
        all: try (destruct o as [op imm]; cbn in *; subst; right;
                  exists [], pc, b; split; [reflexivity|auto]).
        all: intros it [<-|[]]; right; split; [exists []; reflexivity|auto].
    + intros H; inversion H; subst. exists []. apply iter_next_none in E; subst rest.
      cbn. repeat split; auto. { left; reflexivity. } intros it [].
Qed.

Lemma pcs_ok_offset its : forall pc k it,
  pcs_ok pc its -> nth_error its k = Some it ->
  fst it = (pc + length (flat_map item_bytes (firstn k its)))%nat.
Proof.
  induction its as [|x its IH]; intros pc k it Hok Hn; [destruct k; discriminate|].
  destruct Hok as [Hx Hok]. destruct k; cbn [nth_error firstn flat_map] in *.
  - inversion Hn; subst. cbn. lia.
  - rewrite app_length. rewrite (IH _ _ _ Hok Hn). lia.
Qed.

Lemma iterate_partition_lemma tbl code :
  exists its tail,
    iterate tbl code = Some its /\
    code = flat_map item_bytes its ++ tail /\
    (forall k it, nth_error its k = Some it ->
       fst it = length (flat_map item_bytes (firstn k its))) /\
    (tail <> [] ->
       exists init pc op, its = init ++ [(pc, mkOpcode op None)] /\ tbl op = true /\
         (length tail < min_imm_len op)%nat) /\
    (forall it i, In it its -> immediate (snd it) = Some i ->
       tbl (opc (snd it)) = true /\ length i = min_imm_len (opc (snd it)) /\ i <> []) /\
    (forall k it, nth_error its k = Some it -> immediate (snd it) = None ->
       (S k < length its)%nat ->
       tbl (opc (snd it)) = false \/ min_imm_len (opc (snd it)) = 0%nat).
Proof.
  destruct (collect_total (length code) tbl code 0) as [its Hits]; [lia|].
  pose proof (collect_spec _ _ _ _ _ Hits) as (tail & Hcode & Hpcs & Htr & Hall).
  exists its, tail. split; [exact Hits|]. split; [exact Hcode|].
  split; [|split; [|split]].
  - intros k it Hk. rewrite (pcs_ok_offset _ _ _ _ Hpcs Hk). lia.
  - intros Hne. destruct Htr as [->|H]; [congruence|exact H].
  - intros it i Hin Hi. destruct (Hall it Hin) as [Hwf|[_ Hn]]; [|congruence].
    unfold wf_item in Hwf. rewrite Hi in Hwf. destruct Hwf as (? & ? & ?).
    repeat split; auto. destruct i; cbn in *; [lia|discriminate].
  - intros k it Hk Hn Hlast.
    destruct (Hall it (nth_error_In _ _ Hk)) as [Hwf|[[init Hinit] _]].
    + unfold wf_item in Hwf. rewrite Hn in Hwf. tauto.
    + exfalso. (* the item also occurs last *)
      assert (Hk' : (k < length init)%nat).
      { assert ((k < length its)%nat) by (apply nth_error_Some; congruence).
        subst its. rewrite app_length in *. cbn in *. lia. }
      (* pcs are strictly increasing, so the same item cannot occur twice *)
      assert (Hl : nth_error its (length init) = Some it).
      { subst its. rewrite nth_error_app2 by lia. rewrite Nat.sub_diag. reflexivity. }
      pose proof (pcs_ok_offset _ _ _ _ Hpcs Hk) as E1.
      pose proof (pcs_ok_offset _ _ _ _ Hpcs Hl) as E2.
      assert (Hlt : (length (flat_map item_bytes (firstn k its)) <
                     length (flat_map item_bytes (firstn (length init) its)))%nat).
      { clear -Hk' Hk. remember (length init) as n. clear Heqn init.
        assert (Hs : firstn n its = firstn k its ++ it :: firstn (n - S k) (skipn (S k) its)).
        { revert its n Hk' Hk. induction k as [|k IH]; intros its n Hn Hk; destruct its as [|x its];
            try discriminate; destruct n; try lia.
          - cbn in Hk. inversion Hk; subst. cbn. rewrite Nat.sub_0_r. reflexivity.
          - cbn [firstn app]. rewrite (IH its n); [reflexivity| lia | exact Hk]. }
        rewrite Hs, flat_map_app, app_length. cbn [flat_map]. rewrite app_length.
        assert (0 < length (item_bytes it))%nat by (unfold item_bytes; cbn; lia). lia. }
      lia.
Qed.

(** ** JUMPDEST analysis (C02) *)

Fixpoint visit (code : list Z) (k : nat) : option nat :=
  match k with
  | O => Some 0%nat
  | S k' => match visit code k' with
            | Some p => match nth_error code p with
                        | Some b => Some (p + 1 + push_data_len b)%nat
                        | None => None
                        end
            | None => None
            end
  end.

Lemma scan_visit code pc : evm_scan code pc <-> exists k, visit code k = Some pc.
Proof.
  split.
  - induction 1 as [|pc b H [k Hk] Hb]; [exists 0%nat; reflexivity|].
    exists (S k). cbn. rewrite Hk, Hb. reflexivity.
  - intros [k Hk]. revert pc Hk. induction k as [|k IH]; cbn; intros pc Hk.
    + inversion Hk. constructor.
    + destruct (visit code k) as [p|] eqn:Hv; [|discriminate].
      destruct (nth_error code p) as [b|] eqn:Hb; [|discriminate].
      inversion Hk. eapply scan_next; eauto.
Qed.

Lemma visit_mono code j : forall k p q b, (j < k)%nat -> visit code j = Some p ->
  nth_error code p = Some b -> visit code k = Some q -> (p + 1 + push_data_len b <= q)%nat.
Proof.
  induction k as [|k IH]; intros p q b Hlt Hj Hb Hk; [lia|].
  cbn in Hk. destruct (visit code k) as [r|] eqn:Hr; [|discriminate].
  destruct (nth_error code r) as [b'|] eqn:Hb'; [|discriminate]. inversion Hk; subst.
  destruct (Nat.eq_dec j k) as [->|Hne].
  - rewrite Hj in Hr; inversion Hr; subst. rewrite Hb in Hb'; inversion Hb'; subst. lia.
  - specialize (IH p r b ltac:(lia) Hj Hb eq_refl). lia.
Qed.

Lemma scan_linear code a b d : evm_scan code a -> nth_error code a = Some b ->
  evm_scan code d -> (d <= a)%nat \/ (a + 1 + push_data_len b <= d)%nat.
Proof.
  intros Ha Hb Hd. apply scan_visit in Ha as [j Hj]. apply scan_visit in Hd as [k Hk].
  destruct (lt_eq_lt_dec j k) as [[H|H]|H].
  - right. eapply visit_mono; eauto.
  - subst. rewrite Hj in Hk. inversion Hk. lia.
  - left. destruct (nth_error code d) as [b'|] eqn:Hb'.
    + pose proof (visit_mono _ _ _ _ _ _ H Hk Hb' Hj). lia.
    + (* beyond the end: no later visit *)
      exfalso. assert (Hn : forall m, (k < m)%nat -> visit code m = None).
      { induction m as [|m IHm]; intros Hm; [lia|]. cbn.
        destruct (Nat.eq_dec k m) as [->|Hne].
        - rewrite Hk, Hb'. reflexivity.
        - rewrite IHm by lia. reflexivity. }
      rewrite Hn in Hj by lia. discriminate.
Qed.

Lemma skipn_nth_cons {A} (l : list A) n x : nth_error l n = Some x ->
  skipn n l = x :: skipn (S n) l.
Proof.
  revert l. induction n as [|n IH]; intros [|y l] H; try discriminate; cbn in *.
  - inversion H; reflexivity.
  - apply IH; auto.
Qed.

Definition dest_inv (code : list Z) (st : pstate) : Prop :=
  (p_pos st <= length code)%nat /\
  ((p_pos st < length code)%nat -> p_pc st = p_pos st /\ evm_scan code (p_pos st)) /\
  (forall d, In d (p_dests st) <-> evm_valid_jumpdest code d /\ (d < p_pos st)%nat).

Lemma min_imm_push b : (0x60 <= b <= 0x7f) -> min_imm_len b = push_data_len b /\ (0 < min_imm_len b)%nat.
Proof. intros H. unfold min_imm_len, push_data_len.
  destruct ((0x60 <=? b) && (b <=? 0x7f)) eqn:E; split; try reflexivity; lia. Qed.

Lemma parse_step_shape tbl io code st st' b :
  nth_error code (p_pos st) = Some b ->
  parse_step tbl io code st = Some st' ->
  exists o rest', iter_next tbl (b :: skipn (S (p_pos st)) code) = Some (o, rest') /\
    opc o = b /\
    p_dests st' = (if b =? OP_JUMPDEST then p_dests st ++ [p_pc st] else p_dests st) /\
    let rew := is_8024 b && tbl b && imm_is_jumpdest o in
    p_pos st' = (length code - length rest' - (if rew then 1 else 0))%nat /\
    p_pc st' = (p_pc st + 1 + imm_length o - (if rew then 1 else 0))%nat.
Proof.
  intros Hb. unfold parse_step, iter_next_pc. cbn [fst snd].
  rewrite (skipn_nth_cons _ _ _ Hb).
  destruct (iter_next tbl (b :: skipn (S (p_pos st)) code)) as [[o rest']|] eqn:E;
    [|intros H; discriminate H].
  pose proof (iter_next_cases _ _ _ _ _ E) as (Hop & _). rewrite Hop.
  match goal with |- context [let '(_, _) := ?x in _] => destruct x as [int' data] end.
  intros H. exists o, rest'.
  destruct (is_8024 b && tbl b && imm_is_jumpdest o); inversion H; subst; cbn;
    repeat split; auto; lia.
Qed.

Lemma dest_inv_step tbl io code st st' :
  pushes_active tbl -> no_push_immediate tbl code ->
  dest_inv code st -> parse_step tbl io code st = Some st' -> dest_inv code st' /\ (p_pos st < p_pos st')%nat.
Proof.
  intros Hpush Hnp (Hle & Hpos & Hd) Hstep.
  destruct (nth_error code (p_pos st)) as [b|] eqn:Hb.
  2:{ unfold parse_step, iter_next_pc in Hstep. cbn [fst snd] in Hstep.
      rewrite skipn_all2 in Hstep by (apply nth_error_None; auto). discriminate. }
  assert (Hlt : (p_pos st < length code)%nat) by (apply nth_error_Some; congruence).
  destruct (Hpos Hlt) as [Hpc Hscan].
  destruct (parse_step_shape _ _ _ _ _ _ Hb Hstep) as (o & rest' & Hnext & Hop & Hdests & Hp & Hpc').
  set (pos := p_pos st) in *.
  pose proof (iter_next_cases _ _ _ _ _ Hnext) as (_ & Hcases).
  assert (Hdests1 : forall d, In d (p_dests st') <->
            (evm_valid_jumpdest code d /\ (d < pos)%nat) \/ (d = pos /\ b = OP_JUMPDEST)).
  { intros d. rewrite Hdests. destruct (b =? OP_JUMPDEST) eqn:Ej.
    - rewrite in_app_iff, Hd. cbn. rewrite Hpc. split; [intros [?|[<-|[]]]|]; try tauto.
      + right. split; auto. lia.
      + intros [?|[-> _]]; auto.
    - rewrite Hd. split; [auto|intros [?|[_ ?]]; [auto|lia]]. }
  assert (Hselfdest : b = OP_JUMPDEST -> evm_valid_jumpdest code pos).
  { intros ->. split; auto. }
  assert (Hnextlen : length (skipn (S pos) code) = (length code - pos - 1)%nat)
    by (rewrite skipn_length; lia).
  (* the general conclusion once the next position [np] is a scan successor with nothing skipped *)
  assert (Hfin : forall np pc1, p_pos st' = np -> p_pc st' = pc1 -> (pos < np <= length code)%nat ->
            ((np < length code)%nat -> pc1 = np /\ evm_scan code np) ->
            (forall d, evm_scan code d -> nth_error code d = Some 0x5b -> (pos < d < np)%nat -> False) ->
            dest_inv code st' /\ (pos < p_pos st')%nat).
  { intros np pc1 Hnp0 Hpc0 Hnp1 Hsc Hno. split; [|lia]. unfold dest_inv. rewrite Hnp0, Hpc0.
    split; [lia|]. split; [exact Hsc|]. intros d. rewrite Hdests1. split.
    - intros [[Hv Hl]|[-> Hbj]]; (split; [auto|lia]).
    - intros [Hv Hlt'].
      destruct (lt_eq_lt_dec d pos) as [[?|?]|?]; [left; auto|right|exfalso].
      + split; auto. destruct Hv as [_ Hv]. subst d. rewrite Hb in Hv. inversion Hv. reflexivity.
      + destruct Hv. eapply Hno; eauto. }
  cbn zeta in *.
  destruct Hcases as [[Hwf Hrest] | (Hnone & Hrest' & Ht & Hlen)].
  - (* complete instruction *)
    assert (Hrl : length rest' = (length code - pos - 1 - imm_length o)%nat /\
                  (imm_length o <= length code - pos - 1)%nat).
    { rewrite Hrest, app_length in Hnextlen. unfold imm_length.
      destruct (immediate o); cbn in *; lia. }
    destruct Hrl as [Hrl Hil].
    unfold wf_item in Hwf. rewrite Hop in Hwf.
    destruct (immediate o) as [i|] eqn:Hi.
    + destruct Hwf as (Ht & Hli & Hpos').
      assert (Himl : imm_length o = length i) by (unfold imm_length; rewrite Hi; reflexivity).
      rewrite Himl in *.
      assert (Hkind : is_8024 b = true /\ length i = 1%nat \/ is_8024 b = false /\ length i = push_data_len b).
      { unfold is_8024, OP_DUPN, OP_EXCHANGE. unfold min_imm_len in Hli. unfold push_data_len.
        destruct ((0x60 <=? b) && (b <=? 0x7f)) eqn:E1; [right; split; [lia|congruence]|].
        destruct ((0xe6 <=? b) && (b <=? 0xe8)) eqn:E2; [left; split; [lia|congruence]|]. lia. }
      destruct Hkind as [[H8 Hl1]|[H8 Hlp]].
      * (* EIP-8024 *)
        assert (Hpdl : push_data_len b = 0%nat).
        { unfold is_8024, OP_DUPN, OP_EXCHANGE in H8. unfold push_data_len.
          destruct ((0x60 <=? b) && (b <=? 0x7f)) eqn:E1; [lia|reflexivity]. }
        assert (Hsc1 : evm_scan code (pos + 1)).
        { replace (pos + 1)%nat with (pos + 1 + push_data_len b)%nat by lia.
          eapply scan_next; eauto. }
        destruct i as [|b' [|? ?]]; cbn in Hl1; try lia.
        assert (Hb' : nth_error code (pos + 1) = Some b').
        { assert (Hh : nth_error (skipn (S pos) code) 0 = Some b') by (rewrite Hrest; reflexivity).
          rewrite <- (firstn_skipn (S pos) code) at 1.
          rewrite nth_error_app2; rewrite firstn_length; [|lia].
          replace (pos + 1 - Nat.min (S pos) (length code))%nat with 0%nat by lia. exact Hh. }
        assert (I8 : In b [0xe6; 0xe7; 0xe8]) by (unfold is_8024, OP_DUPN, OP_EXCHANGE in H8; cbn [In]; lia).
        pose proof (Hnp _ _ _ Hscan Hb I8 Ht Hb') as Hpb'.
        rewrite H8, Ht in Hp, Hpc'. cbn [andb] in Hp, Hpc'.
        unfold imm_is_jumpdest in Hp, Hpc'. rewrite Hi in Hp, Hpc'.
        rewrite Hpc in *. cbn [length] in *.
        destruct (b' =? OP_JUMPDEST) eqn:Ej.
        -- eapply Hfin; [exact Hp|exact Hpc'|lia| |].
           ++ intros _. replace (length code - length rest' - 1)%nat with (pos + 1)%nat by lia.
              split; [lia|auto].
           ++ intros; lia.
        -- eapply Hfin; [exact Hp|exact Hpc'|lia| |].
           ++ intros _. replace (length code - length rest' - 0)%nat with (pos + 1 + 1 + push_data_len b')%nat by lia.
              split; [lia|]. eapply scan_next; eauto.
           ++ intros d _ Hd5 Hr. replace d with (pos + 1)%nat in Hd5 by lia.
              rewrite Hb' in Hd5. inversion Hd5. subst b'. unfold OP_JUMPDEST in Ej. lia.
      * (* PUSH *)
        rewrite H8 in Hp, Hpc'. cbn [andb] in Hp, Hpc'. rewrite Hpc in *.
        eapply Hfin; [exact Hp|exact Hpc'|lia| |].
        -- intros _. replace (length code - length rest' - 0)%nat with (pos + 1 + push_data_len b)%nat by lia.
           split; [lia|]. eapply scan_next; eauto.
        -- intros d Hs _ Hr. destruct (scan_linear _ _ _ _ Hscan Hb Hs); lia.
    + (* no immediate *)
      assert (Himl : imm_length o = 0%nat) by (unfold imm_length; rewrite Hi; reflexivity).
      assert (Hpdl : push_data_len b = 0%nat).
      { unfold push_data_len. destruct ((0x60 <=? b) && (b <=? 0x7f)) eqn:E1; [|reflexivity].
        destruct Hwf as [Hwf|Hwf]; [rewrite Hpush in Hwf by lia; discriminate|].
        unfold min_imm_len in Hwf. rewrite E1 in Hwf. lia. }
      unfold imm_is_jumpdest in Hp, Hpc'. rewrite Hi in Hp, Hpc'.
      rewrite andb_false_r, Himl in *. rewrite Hpc in *.
      eapply Hfin; [exact Hp|exact Hpc'|lia| |].
      * intros _. replace (length code - length rest' - 0)%nat with (pos + 1 + push_data_len b)%nat by lia.
        split; [lia|]. eapply scan_next; eauto.
      * intros; lia.
  - (* truncated at the end of the code *)
    subst rest'.
    unfold imm_is_jumpdest in Hp, Hpc'. rewrite Hnone in Hp, Hpc'.
    rewrite andb_false_r in *. cbn [length] in *.
    eapply Hfin; [exact Hp|exact Hpc'|lia|lia|].
    intros d Hs Hd5 Hr. rewrite Hnextlen in Hlen.
    assert (Hdl : (d < length code)%nat) by (apply nth_error_Some; congruence).
    unfold min_imm_len in Hlen.
    destruct ((0x60 <=? b) && (b <=? 0x7f)) eqn:E1.
    + assert (push_data_len b = Z.to_nat (b - 0x5f)) by (unfold push_data_len; rewrite E1; reflexivity).
      destruct (scan_linear _ _ _ _ Hscan Hb Hs); lia.
    + destruct ((0xe6 <=? b) && (b <=? 0xe8)); lia.
Qed.

Lemma parse_loop_inv (P : pstate -> Prop) tbl io code :
  (forall st st', P st -> parse_step tbl io code st = Some st' -> P st') ->
  forall fuel st r, P st -> parse_loop fuel tbl io code st = Some r ->
    P r /\ parse_step tbl io code r = None.
Proof.
  intros Hstep. induction fuel as [|fuel IH]; intros st r HP; cbn [parse_loop];
    destruct (parse_step tbl io code st) as [st'|] eqn:E.
  - intros H; discriminate H.
  - intros H; inversion H; subst; auto.
  - intros H. apply (IH st' r); eauto.
  - intros H; inversion H; subst; auto.
Qed.

(** Every step consumes at least one byte, so the fuel [length code] is enough. *)
Lemma parse_step_progress tbl io code st st' :
  (p_pos st <= length code)%nat -> parse_step tbl io code st = Some st' ->
  (p_pos st < p_pos st' <= length code)%nat.
Proof.
  intros Hle Hstep.
  destruct (nth_error code (p_pos st)) as [b|] eqn:Hb.
  2:{ unfold parse_step, iter_next_pc in Hstep. cbn [fst snd] in Hstep.
      rewrite skipn_all2 in Hstep by (apply nth_error_None; auto). discriminate. }
  assert (Hlt : (p_pos st < length code)%nat) by (apply nth_error_Some; congruence).
  destruct (parse_step_shape _ _ _ _ _ _ Hb Hstep) as (o & rest' & Hnext & Hop & _ & Hp & _).
  pose proof (iter_next_cases _ _ _ _ _ Hnext) as (_ & [[Hwf Hr]|(Hn & -> & _)]).
  - assert (Hnl : length (skipn (S (p_pos st)) code) = (length code - p_pos st - 1)%nat)
      by (rewrite skipn_length; lia).
    rewrite Hr, app_length in Hnl.
    destruct (is_8024 b && tbl b && imm_is_jumpdest o) eqn:Er.
    + apply andb_true_iff in Er as [_ Er]. unfold imm_is_jumpdest in Er.
      destruct (immediate o) as [[|? [|? ?]]|]; try discriminate. cbn in *. lia.
    + lia.
  - assert (is_8024 b && tbl b && imm_is_jumpdest o = false) as Er.
    { unfold imm_is_jumpdest. rewrite Hn. apply andb_false_r. }
    cbn zeta in Hp. rewrite Er in Hp. cbn [length] in Hp. lia.
Qed.

Lemma parse_total tbl io code : exists st, parse tbl io code = Some st.
Proof.
  unfold parse.
  assert (H : forall fuel st, (p_pos st <= length code)%nat -> (length code - p_pos st <= fuel)%nat ->
            exists r, parse_loop fuel tbl io code st = Some r).
  { induction fuel as [|fuel IH]; intros st Hle Hf; cbn [parse_loop];
      destruct (parse_step tbl io code st) as [st'|] eqn:E; eauto.
    - apply parse_step_progress in E; lia.
    - apply parse_step_progress in E; [|lia]. apply IH; lia. }
  apply H; cbn; lia.
Qed.

Lemma parse_end tbl io code st : (p_pos st <= length code)%nat ->
  parse_step tbl io code st = None -> p_pos st = length code.
Proof.
  intros Hle Hn. destruct (Nat.eq_dec (p_pos st) (length code)) as [|Hne]; [auto|exfalso].
  destruct (nth_error code (p_pos st)) as [b|] eqn:Hb; [|apply nth_error_None in Hb; lia].
  unfold parse_step, iter_next_pc in Hn. cbn [fst snd] in Hn.
  rewrite (skipn_nth_cons _ _ _ Hb) in Hn.
  destruct (iter_next tbl (b :: _)) as [[o rest']|] eqn:E;
    [|apply iter_next_none in E; discriminate].
  match type of Hn with context [let '(_, _) := ?x in _] => destruct x end.
  destruct (is_8024 (opc o) && tbl (opc o) && imm_is_jumpdest o); discriminate.
Qed.

Lemma jumpdests_correct tbl io code st pc :
  pushes_active tbl -> no_push_immediate tbl code ->
  parse tbl io code = Some st ->
  (is_valid_jump st pc = true <-> evm_valid_jumpdest code pc).
Proof.
  intros Hpush Hnp Hparse.
  assert (Hinv : dest_inv code st /\ parse_step tbl io code st = None).
  { eapply (parse_loop_inv (dest_inv code)); [|..|exact Hparse].
    - intros s s' Hs Hstep. eapply dest_inv_step; eauto.
    - unfold dest_inv. cbn. repeat split; try lia. { constructor. } }
  destruct Hinv as [(Hle & _ & Hd) Hend].
  pose proof (parse_end _ _ _ _ Hle Hend) as Hlen.
  unfold is_valid_jump. rewrite existsb_exists. split.
  - intros (d & Hin & Heq). apply Nat.eqb_eq in Heq; subst d. apply Hd in Hin. tauto.
  - intros Hv. exists pc. split; [|apply Nat.eqb_refl]. apply Hd. split; [auto|].
    destruct Hv as [_ Hv]. rewrite Hlen. apply nth_error_Some. congruence.
Qed.

(** ** EIP-8024 codec (C03) *)

Definition byte_range : list Z := map Z.of_nat (seq 0 256).
Lemma in_byte_range x : 0 <= x < 256 -> In x byte_range.
Proof.
  intros H. unfold byte_range. apply in_map_iff. exists (Z.to_nat x).
  split; [lia|]. apply in_seq. lia.
Qed.
Lemma sweep (P : Z -> bool) : forallb P byte_range = true -> forall x, 0 <= x < 256 -> P x = true.
Proof. intros H x Hx. rewrite forallb_forall in H. apply H, in_byte_range, Hx. Qed.

Lemma sweep2 (P : Z -> Z -> bool) : forallb (fun x => forallb (P x) byte_range) byte_range = true ->
  forall x y, 0 <= x < 256 -> 0 <= y < 256 -> P x y = true.
Proof.
  intros H x y Hx Hy. pose proof (sweep (fun x => forallb (P x) byte_range) H x Hx) as H1.
  exact (sweep (P x) H1 y Hy).
Qed.

Definition opt_eqb {A} (eqb : A -> A -> bool) (a b : option A) : bool :=
  match a, b with Some x, Some y => eqb x y | None, None => true | _, _ => false end.

Lemma decode_single_spec x : 0 <= x < 256 ->
  decode_single x = (if x <=? 90 then Some (x + 145) else if x >=? 128 then Some (x - 111) else None).
Proof.
  intros H.
  assert (Hs : opt_eqb Z.eqb (decode_single x)
    (if x <=? 90 then Some (x + 145) else if x >=? 128 then Some (x - 111) else None) = true)
    by (apply (sweep (fun x => opt_eqb Z.eqb (decode_single x)
    (if x <=? 90 then Some (x + 145) else if x >=? 128 then Some (x - 111) else None))); [vm_compute; reflexivity|auto]).
  unfold opt_eqb in Hs.
  destruct (decode_single x), (if x <=? 90 then _ else _); try discriminate; auto.
  f_equal. lia.
Qed.

Lemma encode_single_spec n : 0 <= n < 256 ->
  encode_single n = (if (17 <=? n) && (n <=? 235)
                     then Some (if n <=? 144 then n + 111 else n - 145) else None).
Proof.
  intros H.
  assert (Hs : opt_eqb Z.eqb (encode_single n)
    (if (17 <=? n) && (n <=? 235) then Some (if n <=? 144 then n + 111 else n - 145) else None) = true)
    by (apply (sweep (fun n => opt_eqb Z.eqb (encode_single n)
    (if (17 <=? n) && (n <=? 235) then Some (if n <=? 144 then n + 111 else n - 145) else None)));
    [vm_compute; reflexivity|auto]).
  unfold opt_eqb in Hs.
  destruct (encode_single n), (if (17 <=? n) && (n <=? 235) then _ else _); try discriminate; auto.
  f_equal. lia.
Qed.

Lemma single_roundtrip_lemma x n : 0 <= x < 256 -> 0 <= n < 256 ->
  (decode_single x = Some n <-> encode_single n = Some x).
Proof.
  intros Hx Hn. rewrite decode_single_spec, encode_single_spec by auto.
  split; intros H.
  - assert (n = x + 145 /\ x <= 90 \/ n = x - 111 /\ 128 <= x).
    { destruct (x <=? 90) eqn:E; [inversion H; lia|].
      destruct (x >=? 128) eqn:E2; inversion H; lia. }
    destruct ((17 <=? n) && (n <=? 235)) eqn:E; [|lia]. f_equal.
    destruct (n <=? 144) eqn:E2; lia.
  - destruct ((17 <=? n) && (n <=? 235)) eqn:E; [|discriminate].
    destruct (n <=? 144) eqn:E2; injection H; clear H; intros H; rewrite ?H.
    + destruct (x <=? 90) eqn:E3; [lia|]. destruct (x >=? 128) eqn:E4; [f_equal; lia|lia].
    + destruct (x <=? 90) eqn:E3; [f_equal; lia|lia].
Qed.

Lemma single_domain_lemma x : 0 <= x < 256 ->
  (decode_single x = None <-> 0x5b <= x <= 0x7f) /\
  (forall n, decode_single x = Some n -> depth_ok n).
Proof.
  intros Hx. rewrite decode_single_spec by auto. unfold depth_ok. split.
  - destruct (x <=? 90) eqn:E, (x >=? 128) eqn:E2; split; intros; try discriminate; try lia; auto.
  - intros n. destruct (x <=? 90) eqn:E, (x >=? 128) eqn:E2; intros H; inversion H; lia.
Qed.

Lemma single_surjective_lemma n : depth_ok n -> exists x, 0 <= x < 256 /\ encode_single n = Some x /\ decode_single x = Some n.
Proof.
  unfold depth_ok; intros H.
  assert (He : exists x, 0 <= x < 256 /\ encode_single n = Some x).
  { rewrite encode_single_spec by lia. destruct ((17 <=? n) && (n <=? 235)) eqn:E; [|lia].
    eexists; split; [|reflexivity]. destruct (n <=? 144) eqn:E2; lia. }
  destruct He as (x & Hx & He). exists x. split; [auto|split; [auto|]].
  apply single_roundtrip_lemma; auto; lia.
Qed.

Definition pair_eqb (a b : Z * Z) := (fst a =? fst b) && (snd a =? snd b).

Lemma decode_pair_range x p : 0 <= x < 256 -> decode_pair x = Some p ->
  pair_ok (fst p) (snd p) /\ (snd p <= 16 -> encode_pair (fst p) (snd p) = Some x).
Proof.
  intros Hx H.
  pose proof (sweep (fun x => match decode_pair x with
      | Some (n, m) => (1 <=? n) && (n <? m) && (n + m <=? 30)
          && (opt_eqb Z.eqb (encode_pair n m) (Some x) || negb (m <=? 16))
      | None => true end) ltac:(vm_compute; reflexivity) x Hx) as Hs.
  cbn beta in Hs. rewrite H in Hs. destruct p as [n m]. cbn [fst snd].
  unfold pair_ok. split; [lia|]. intros Hm.
  destruct (encode_pair n m) as [x'|]; unfold opt_eqb in Hs; [|lia].
  f_equal. lia.
Qed.

Lemma encode_pair_range n m x : 0 <= n < 256 -> 0 <= m < 256 -> encode_pair n m = Some x ->
  0 <= x < 256 /\ m <= 16 /\ decode_pair x = Some (n, m).
Proof.
  intros Hn Hm H.
  pose proof (sweep2 (fun n m => match encode_pair n m with
      | Some x => (0 <=? x) && (x <? 256) && (m <=? 16) && opt_eqb pair_eqb (decode_pair x) (Some (n, m))
      | None => true end) ltac:(vm_compute; reflexivity) n m Hn Hm) as Hs.
  cbn beta in Hs. rewrite H in Hs.
  destruct (decode_pair x) as [[n' m']|]; unfold opt_eqb, pair_eqb in Hs; cbn [fst snd] in Hs; [|lia].
  split; [lia|]. split; [lia|]. assert (n' = n /\ m' = m) as [-> ->] by lia. reflexivity.
Qed.

Lemma pair_roundtrip_lemma x n m : 0 <= x < 256 -> 0 <= n < 256 -> 0 <= m < 256 ->
  (encode_pair n m = Some x <-> decode_pair x = Some (n, m) /\ m <= 16).
Proof.
  intros Hx Hn Hm. split; intros H.
  - apply encode_pair_range in H; auto. tauto.
  - destruct H as [H H16]. apply decode_pair_range in H; auto. cbn in H. tauto.
Qed.

Lemma pair_domain_lemma x : 0 <= x < 256 -> (decode_pair x = None <-> 0x52 <= x <= 0x7f).
Proof.
  intros Hx.
  pose proof (sweep (fun x => Bool.eqb (match decode_pair x with None => true | _ => false end)
     ((0x52 <=? x) && (x <=? 0x7f))) ltac:(vm_compute; reflexivity) x Hx) as Hs.
  cbn beta in Hs. apply Bool.eqb_prop in Hs.
  destruct (decode_pair x); split; intros; try discriminate; try reflexivity; lia.
Qed.

(** Every pair is the operand of exactly one byte. *)
Definition exchange_byte (n m : Z) : Z :=
  if m <=? 16 then Z.lxor ((n - 1) * 16 + (m - 1)) 143 else Z.lxor ((29 - m) * 16 + (n - 1)) 143.

Lemma pair_bijective_lemma n m : pair_ok n m ->
  exists x, 0 <= x < 256 /\ decode_pair x = Some (n, m) /\
    forall y, 0 <= y < 256 -> decode_pair y = Some (n, m) -> y = x.
Proof.
  unfold pair_ok; intros H. exists (exchange_byte n m).
  pose proof (sweep2 (fun n m => implb ((1 <=? n) && (n <? m) && (n + m <=? 30))
     ((0 <=? exchange_byte n m) && (exchange_byte n m <? 256) &&
      opt_eqb pair_eqb (decode_pair (exchange_byte n m)) (Some (n, m))))
     ltac:(vm_compute; reflexivity) n m ltac:(lia) ltac:(lia)) as Hs.
  cbn beta in Hs.
  replace ((1 <=? n) && (n <? m) && (n + m <=? 30)) with true in Hs by lia. cbn [implb] in Hs.
  split; [lia|]. split.
  - destruct (decode_pair (exchange_byte n m)) as [[n' m']|]; unfold opt_eqb, pair_eqb in Hs;
      cbn [fst snd] in Hs; [|lia].
    assert (n' = n /\ m' = m) as [-> ->] by lia. reflexivity.
  - intros y Hy Hd.
    pose proof (sweep (fun y => match decode_pair y with
       | Some (n, m) => y =? exchange_byte n m | None => true end) ltac:(vm_compute; reflexivity) y Hy) as Hs2.
    cbn beta in Hs2. rewrite Hd in Hs2. lia.
Qed.

(** ** Constant handles (C04) *)

Lemma index_of_some v l k : index_of v l = Some k -> nth_error l k = Some v.
Proof.
  revert k. induction l as [|x l IH]; cbn; intros k H; [discriminate|].
  destruct (x =? v) eqn:E; [inversion H; cbn; f_equal; lia|].
  destruct (index_of v l); [|discriminate]. inversion H. cbn. auto.
Qed.
Lemma index_of_none v l : index_of v l = None -> ~ In v l.
Proof.
  induction l as [|x l IH]; cbn; intros H; [tauto|].
  destruct (x =? v) eqn:E; [discriminate|].
  destruct (index_of v l); [discriminate|]. intros [?|?]; [lia|]. apply IH; auto.
Qed.

Lemma intern_spec i v i' k : intern i v = (i', k) ->
  nth_error i' k = Some v /\ (exists ext, i' = i ++ ext /\ (length ext <= 1)%nat) /\
  (NoDup i -> NoDup i').
Proof.
  unfold intern. destruct (index_of v i) as [k'|] eqn:E; intros H; inversion H; subst.
  - split; [apply index_of_some; auto|]. split; [exists []; rewrite app_nil_r; cbn; auto|auto].
  - split; [rewrite nth_error_app2, Nat.sub_diag by lia; reflexivity|].
    split; [exists [v]; cbn; auto|]. intros Hnd.
    apply index_of_none in E.
    apply NoDup_rev in Hnd. rewrite <- (rev_involutive (i ++ [v])). apply NoDup_rev.
    rewrite rev_app_distr. cbn. constructor; [rewrite <- in_rev; auto|auto].
Qed.

Lemma lor_tag v : 0 <= v < 2 ^ 31 -> Z.lor INLINE_TAG v = 2 ^ 31 + v.
Proof.
  intros H. unfold INLINE_TAG. symmetry. apply Z.add_nocarry_lxor || idtac.
  rewrite <- Z.lxor_lor.
  - apply Z.add_nocarry_lxor. apply Z.bits_inj'. intros n Hn. rewrite Z.land_spec, Z.bits_0.
    rewrite Z.pow2_bits_eqb by lia. destruct (31 =? n) eqn:E; [|reflexivity]. cbn.
    assert (n = 31) by lia. subst n. rewrite Z.testbit_odd, Z.shiftr_div_pow2 by lia.
    rewrite Z.div_small by lia. reflexivity.
  - apply Z.bits_inj'. intros n Hn. rewrite Z.land_spec, Z.bits_0.
    rewrite Z.pow2_bits_eqb by lia. destruct (31 =? n) eqn:E; [|reflexivity]. cbn.
    assert (n = 31) by lia. subst n. rewrite Z.testbit_odd, Z.shiftr_div_pow2 by lia.
    rewrite Z.div_small by lia. reflexivity.
Qed.

Lemma land_tag_set v : 0 <= v < 2 ^ 31 ->
  Z.land (2 ^ 31 + v) INLINE_TAG = 2 ^ 31 /\ Z.land (2 ^ 31 + v) (2 ^ 31 - 1) = v.
Proof.
  intros H. split.
  - unfold INLINE_TAG. apply Z.bits_inj'. intros n Hn. rewrite Z.land_spec.
    rewrite Z.pow2_bits_eqb by lia. destruct (31 =? n) eqn:E; [|apply andb_false_r].
    rewrite andb_true_r. assert (n = 31) by lia. subst n.
    rewrite Z.testbit_odd, Z.shiftr_div_pow2 by lia.
    replace (2 ^ 31 + v) with (v + 1 * 2 ^ 31) by lia. rewrite Z.div_add by lia.
    rewrite Z.div_small by lia. reflexivity.
  - replace (2 ^ 31 - 1) with (Z.ones 31) by reflexivity. rewrite Z.land_ones by lia.
    replace (2 ^ 31 + v) with (v + 1 * 2 ^ 31) by lia. rewrite Z.mod_add by lia.
    apply Z.mod_small; lia.
Qed.

Lemma land_tag_clear k : 0 <= k < 2 ^ 31 -> Z.land k INLINE_TAG = 0.
Proof.
  intros H. unfold INLINE_TAG. apply Z.bits_inj'. intros n Hn. rewrite Z.land_spec, Z.bits_0.
  rewrite Z.pow2_bits_eqb by lia. destruct (31 =? n) eqn:E; [|apply andb_false_r].
  rewrite andb_true_r. assert (n = 31) by lia. subst n.
  rewrite Z.testbit_odd, Z.shiftr_div_pow2 by lia. rewrite Z.div_small by lia. reflexivity.
Qed.

Lemma imm_get_inline v i : 0 <= v < 2 ^ 31 -> imm_get (Z.lor INLINE_TAG v) i = Some v.
Proof.
  intros H. rewrite lor_tag by auto. unfold imm_get.
  destruct (land_tag_set v H) as [-> ->]. reflexivity.
Qed.

Lemma imm_get_interned k i : (k < length i)%nat -> Z.of_nat (length i) <= 2 ^ 31 ->
  imm_get (Z.of_nat k mod 2 ^ 32) i = nth_error i k.
Proof.
  intros Hk Hl. rewrite Z.mod_small by lia. unfold imm_get.
  rewrite land_tag_clear by lia. cbn [Z.eqb]. rewrite Nat2Z.id. reflexivity.
Qed.

Lemma imm_new_spec v i i' h : 0 <= v -> imm_new v i = (i', h) ->
  Z.of_nat (length i) < 2 ^ 31 ->
  imm_get h i' = Some v /\ (exists ext, i' = i ++ ext /\ (length ext <= 1)%nat) /\ (NoDup i -> NoDup i').
Proof.
  intros Hv. unfold imm_new. destruct (v <? INLINE_TAG) eqn:E.
  - intros H; apply pair_equal_spec in H as [<- <-]. intros _. split; [apply imm_get_inline; unfold INLINE_TAG in *; lia|].
    split; [exists []; rewrite app_nil_r; cbn; auto|auto].
  - destruct (intern i v) as [i1 k] eqn:Ei. intros H; apply pair_equal_spec in H as [<- <-]. intros Hl.
    apply intern_spec in Ei as (Hn & (ext & -> & Hext) & Hnd).
    split; [|split; [exists ext; auto|auto]].
    rewrite imm_get_interned; auto.
    + apply nth_error_Some. congruence.
    + rewrite app_length. lia.
Qed.

Lemma imm_get_app h i ext v : imm_get h i = Some v -> imm_get h (i ++ ext) = Some v.
Proof.
  unfold imm_get. destruct (Z.land h INLINE_TAG =? 0); [|auto].
  unfold interner_get. intros H. rewrite nth_error_app1; auto. apply nth_error_Some. congruence.
Qed.

(** Storing a whole list of values, left to right. *)
Fixpoint store_all (vs : list Z) (i : interner) : interner * list Z :=
  match vs with
  | [] => (i, [])
  | v :: vs' => let '(i1, h) := imm_new v i in
                let '(i2, hs) := store_all vs' i1 in (i2, h :: hs)
  end.

Lemma store_all_spec vs : forall i i' hs,
  Forall (fun v => 0 <= v) vs -> Z.of_nat (length i + length vs) <= 2 ^ 31 -> NoDup i ->
  store_all vs i = (i', hs) ->
  (exists ext, i' = i ++ ext) /\ NoDup i' /\
  length hs = length vs /\
  (forall k v, nth_error vs k = Some v ->
     exists h, nth_error hs k = Some h /\ imm_get h i' = Some v).
Proof.
  induction vs as [|v vs IH]; cbn [store_all length]; intros i i' hs Hpos Hl Hnd H.
  - inversion H; subst. split; [exists []; rewrite app_nil_r; auto|]. split; [auto|split;[auto|]].
    intros [|k] v Hk; discriminate.
  - destruct (imm_new v i) as [i1 h] eqn:E1. destruct (store_all vs i1) as [i2 hs1] eqn:E2.
    inversion H; subst; clear H. inversion Hpos; subst.
    apply imm_new_spec in E1 as (Hget & (ext & -> & Hext) & Hnd1); [|auto|lia].
    apply IH in E2 as ((ext2 & ->) & Hnd2 & Hlen & Hall); auto.
    2:{ rewrite app_length. lia. }
    split; [exists (ext ++ ext2); rewrite app_assoc; auto|]. split; [auto|]. split; [cbn; lia|].
    intros [|k] w Hk; cbn in *.
    + inversion Hk; subst. exists h. split; auto. apply imm_get_app; auto.
    + apply Hall; auto.
Qed.

(** Same value, same handle. *)
Lemma imm_new_stable v i i' h : imm_new v i = (i', h) -> forall ext, imm_new v (i' ++ ext) = (i' ++ ext, h).
Proof.
  unfold imm_new. destruct (v <? INLINE_TAG); [intros H ext; apply pair_equal_spec in H as [<- <-]; reflexivity|].
  destruct (intern i v) as [i1 k] eqn:E. intros H ext; apply pair_equal_spec in H as [<- <-].
  rename i1 into i'.
  assert (index_of v i' = Some k) as Hi.
  { unfold intern in E. destruct (index_of v i) eqn:Ei; inversion E; subst; auto.
    clear E. revert Ei. induction i as [|x i IH]; cbn; intros Ei.
    - rewrite Z.eqb_refl. reflexivity.
    - destruct (x =? v); [discriminate|]. destruct (index_of v i); [discriminate|].
      rewrite IH by auto. reflexivity. }
  unfold intern. replace (index_of v (i' ++ ext)) with (Some k); [reflexivity|].
  clear E. revert k Hi. induction i' as [|x l IH]; cbn; intros k Hi; [discriminate|].
  destruct (x =? v); [auto|]. destruct (index_of v l) eqn:El; [|discriminate].
  rewrite <- (IH n); auto.
Qed.

(** Values of immediates. *)
Lemma be_value_acc l : forall acc,
  fold_left (fun a b => a * 256 + b) l acc = acc * 256 ^ Z.of_nat (length l) + evm_be l.
Proof.
  induction l as [|b l IH]; intros acc; cbn [fold_left evm_be length].
  - rewrite Z.pow_0_r. lia.
  - rewrite IH. rewrite Nat2Z.inj_succ, Z.pow_succ_r by lia. ring.
Qed.
Lemma be_value_eq l : be_value l = evm_be l.
Proof. unfold be_value. rewrite be_value_acc. lia. Qed.

Lemma push_bytes_eq n : forall code start,
  evm_push_bytes code start n =
  firstn n (skipn start code) ++ repeat 0 (n - length (firstn n (skipn start code))).
Proof.
  induction n as [|n IH]; intros code start; [reflexivity|].
  cbn [evm_push_bytes]. rewrite IH. unfold byte_at.
  destruct (nth_error code start) as [b|] eqn:E.
  - rewrite (skipn_nth_cons _ _ _ E). cbn [firstn app length].
    rewrite (nth_error_nth _ _ _ E). f_equal.
  - apply nth_error_None in E. rewrite nth_overflow by auto.
    rewrite !skipn_all2 by lia. rewrite !firstn_nil. cbn [length app].
    rewrite !Nat.sub_0_r. reflexivity.
Qed.

Lemma evm_be_zeros k : evm_be (repeat 0 k) = 0.
Proof. induction k; cbn [repeat evm_be]; lia. Qed.

Lemma min_imm_le32 op : (min_imm_len op <= 32)%nat.
Proof. unfold min_imm_len. destruct ((0x60 <=? op) && (op <=? 0x7f)) eqn:E; [lia|].
  destruct ((0xe6 <=? op) && (op <=? 0xe8)); lia. Qed.

Lemma imm_value_eq code pc op : imm_value code pc op = evm_push_value code pc (min_imm_len op).
Proof.
  unfold imm_value, evm_push_value. rewrite push_bytes_eq.
  pose proof (min_imm_le32 op) as H32.
  set (n := min_imm_len op) in *. set (av := firstn n (skipn (pc + 1) code)).
  assert (Hav : (length av <= n)%nat) by (unfold av; rewrite firstn_length; lia).
  destruct (length av =? n)%nat eqn:E.
  - apply Nat.eqb_eq in E. rewrite E, Nat.sub_diag. cbn [repeat]. rewrite app_nil_r. apply be_value_eq.
  - apply Nat.eqb_neq in E. rewrite be_value_eq.
    assert (Hf : firstn n (av ++ repeat 0 (32 - length av)) = av ++ repeat 0 (n - length av)).
    { rewrite firstn_app. rewrite firstn_all2 by lia. f_equal.
      replace (32 - length av)%nat with ((n - length av) + (32 - n))%nat by lia.
      rewrite repeat_app, firstn_app, repeat_length, Nat.sub_diag. cbn [firstn].
      rewrite app_nil_r. apply firstn_all2. rewrite repeat_length; lia. }
    destruct av as [|a av'] eqn:Eav; [|rewrite <- Hf; reflexivity].
    cbn [app length]. symmetry. apply evm_be_zeros.
Qed.

Lemma evm_be_nonneg l : Forall is_byte l -> 0 <= evm_be l.
Proof.
  induction 1 as [|b l Hb Hl IH]; cbn [evm_be]; [lia|]. unfold is_byte in Hb.
  assert (0 < 256 ^ Z.of_nat (length l)) by (apply Z.pow_pos_nonneg; lia). nia.
Qed.

Lemma push_bytes_bytes code : Forall is_byte code -> forall n start, Forall is_byte (evm_push_bytes code start n).
Proof.
  intros Hc. induction n as [|n IH]; intros start; cbn [evm_push_bytes]; constructor; auto.
  unfold byte_at. destruct (nth_in_or_default start code 0) as [Hin| ->]; [|unfold is_byte; lia].
  rewrite Forall_forall in Hc. auto.
Qed.

(** Invariant of the parse loop for constants. *)
Definition const_inv (code : list Z) (st : pstate) : Prop :=
  (p_pos st <= length code)%nat /\
  (length (p_int st) <= p_pos st)%nat /\
  (forall ins, In ins (p_insts st) -> has_imm_data (i_op ins) = true ->
     imm_get (i_data ins) (p_int st) = Some (evm_push_value code (i_pc ins) (min_imm_len (i_op ins)))) /\
  (forall ins, In ins (p_insts st) -> (i_op ins = OP_JUMPDEST \/ i_op ins = OP_PC) ->
     i_data ins = Z.of_nat (i_pc ins) mod 2 ^ 32).

Lemma const_inv_step tbl io code st st' :
  Forall is_byte code -> Z.of_nat (length code) < 2 ^ 31 ->
  const_inv code st -> parse_step tbl io code st = Some st' -> const_inv code st'.
Proof.
  intros Hbytes Hlen (Hle & Hint & Hall & Hpcs) Hstep.
  pose proof (parse_step_progress _ _ _ _ _ Hle Hstep) as Hprog.
  unfold parse_step, iter_next_pc in Hstep. cbn [fst snd] in Hstep.
  destruct (iter_next tbl (skipn (p_pos st) code)) as [[o rest']|] eqn:E; [|discriminate].
  set (op := opc o) in *. set (pc := p_pc st) in *.
  set (dt := if has_imm_data op then imm_new (imm_value code pc op) (p_int st) else _) in Hstep.
  destruct dt as [int' data] eqn:Edt. subst dt.
  assert (Hres : p_int st' = int' /\ exists io', p_insts st' = p_insts st ++ [mkInst pc op (tbl op) io' data]).
  { destruct (is_8024 op && tbl op && imm_is_jumpdest o); inversion Hstep; subst; cbn; eauto. }
  destruct Hres as (Hint' & io' & Hins').
  assert (Hnn : 0 <= imm_value code pc op).
  { rewrite imm_value_eq. apply evm_be_nonneg, push_bytes_bytes; auto. }
  assert (Hsp : (exists ext, int' = p_int st ++ ext /\ (length ext <= 1)%nat) /\
     (has_imm_data op = true -> imm_get data int' = Some (imm_value code pc op)) /\
     ((op = OP_JUMPDEST \/ op = OP_PC) -> data = Z.of_nat pc mod 2 ^ 32)).
  { destruct (has_imm_data op) eqn:Eh.
    - apply imm_new_spec in Edt as (Hg & He & _); auto; [|lia]. repeat split; auto.
      intros [-> | ->]; discriminate Eh.
    - inversion Edt; subst. repeat split; try discriminate.
      + exists []. rewrite app_nil_r. cbn; auto.
      + intros Hop. replace ((op =? OP_JUMPDEST) || (op =? OP_PC)) with true; [reflexivity|].
        unfold OP_JUMPDEST, OP_PC in *. lia. }
  destruct Hsp as ((ext & Hext & Hextl) & Hget & Hdata).
  unfold const_inv. rewrite Hint', Hins'.
  repeat split.
  - lia.
  - rewrite Hext, app_length. lia.
  - intros ins Hin Hh. apply in_app_iff in Hin as [Hin|[<-|[]]].
    + rewrite Hext. apply imm_get_app. auto.
    + cbn [i_data i_pc i_op] in *. rewrite Hget by auto. rewrite imm_value_eq. reflexivity.
  - intros ins Hin Hop. apply in_app_iff in Hin as [Hin|[<-|[]]]; auto.
Qed.

Lemma push_constants_lemma tbl io code st ins :
  Forall is_byte code -> Z.of_nat (length code) < 2 ^ 31 ->
  parse tbl io code = Some st -> In ins (p_insts st) -> has_imm_data (i_op ins) = true ->
  imm_get (i_data ins) (p_int st) = Some (evm_push_value code (i_pc ins) (min_imm_len (i_op ins))).
Proof.
  intros Hb Hl Hp Hin Hh.
  assert (Hinv : const_inv code st /\ parse_step tbl io code st = None).
  { eapply (parse_loop_inv (const_inv code)); [|..|exact Hp].
    - intros s s' Hs Hst. eapply const_inv_step; eauto.
    - unfold const_inv; cbn. repeat split; try lia; intros ? []. }
  destruct Hinv as ((_ & _ & H & _) & _). auto.
Qed.
