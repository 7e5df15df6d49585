(** Soundness of the abstract interpretation of stacks. *)
From Verif Require Import BlockModel FlowSpec CfgProof ArithSpec ArithProof.
From Coq Require Import ZifyBool.
Open Scope Z_scope.

(** ** Abstract values. *)
Definition gamma (a : aval) (v : Z) : Prop :=
  match a with AConst c => v = c | ASet l => In v l | ATop => True end.
(** [A] describes the slots it has in common with [st]. *)
Definition prel (A : list aval) (st : list Z) : Prop :=
  forall k a v, nth_error A k = Some a -> nth_error st k = Some v -> gamma a v.

Lemma prel_nil st : prel [] st.
Proof. intros [|k]; discriminate. Qed.
Lemma prel_cons a v A st : gamma a v -> prel A st -> prel (a :: A) (v :: st).
Proof. intros G P [|k] x y Hx Hy; cbn in *; [congruence|eapply P; eauto]. Qed.
Lemma prel_tail a v A st : prel (a :: A) (v :: st) -> prel A st.
Proof. intros P k x y Hx Hy. apply (P (S k) x y Hx Hy). Qed.
Lemma nth_skipn {A} (l : list A) : forall n k, nth_error (skipn n l) k = nth_error l (n + k).
Proof. induction l as [|x l IH]; intros [|n] k; cbn; auto. destruct k; reflexivity. Qed.
Lemma prel_skipn n A st : prel A st -> prel (skipn n A) (skipn n st).
Proof.
  intros P k x y Hx Hy. rewrite nth_skipn in Hx. rewrite nth_skipn in Hy. eapply P; eauto.
Qed.
Lemma prel_tops n st : prel (repeat ATop n) st.
Proof. intros k a v Ha _. apply nth_error_In, repeat_spec in Ha. subst. exact Logic.I. Qed.
Lemma prel_app_tops n (outs : list Z) A st : length outs = n -> prel A st -> prel (repeat ATop n ++ A) (outs ++ st).
Proof.
  revert outs. induction n as [|n IH]; intros [|o outs] L P; try discriminate; cbn; auto.
  apply prel_cons; [exact Logic.I|]. apply IH; auto.
Qed.

(** ** Slot exchanges. *)
Lemma set_nth_length {A} (v : A) : forall l k, length (set_nth k v l) = length l.
Proof. induction l as [|x l IH]; intros [|k]; cbn; auto. Qed.
Lemma nth_set_nth {A} (v : A) : forall l k i,
  nth_error (set_nth k v l) i = if (i =? k)%nat then (if (k <? length l)%nat then Some v else None) else nth_error l i.
Proof.
  induction l as [|x l IH]; intros [|k] [|i]; cbn; try reflexivity.
  - destruct (i =? k)%nat; reflexivity.
  - rewrite IH. reflexivity.
Qed.
Lemma aset_nth_eq k v l : aset_nth k v l = set_nth k v l.
Proof. revert k. induction l as [|x l IH]; intros [|k]; cbn; congruence. Qed.
Lemma nth_exchange {A} a b (l l' : list A) : exchange a b l = Some l' ->
  length l' = length l /\ forall k, nth_error l' k = if (k =? a)%nat then nth_error l b else if (k =? b)%nat then nth_error l a else nth_error l k.
Proof.
  unfold exchange. destruct (nth_error l a) as [x|] eqn:Ea; [|discriminate]. destruct (nth_error l b) as [y|] eqn:Eb; [|discriminate].
  intros H. injection H as <-. split; [rewrite !set_nth_length; reflexivity|]. intros k.
  rewrite !nth_set_nth, set_nth_length. pose proof (nth_lt _ _ _ Ea). pose proof (nth_lt _ _ _ Eb).
  destruct (Nat.eqb_spec k a).
  - destruct (Nat.ltb_spec a (length l)); [reflexivity|lia].
  - destruct (Nat.eqb_spec k b); [|reflexivity]. destruct (Nat.ltb_spec b (length l)); [reflexivity|lia].
Qed.
Lemma aswap_exchange a b A : (a < length A)%nat -> (b < length A)%nat -> exchange a b A = Some (aswap a b A).
Proof.
  intros Ha Hb. unfold exchange, aswap. destruct (nth_some A a Ha) as [x ->]. destruct (nth_some A b Hb) as [y ->].
  rewrite !aset_nth_eq. reflexivity.
Qed.
Lemma prel_exchange a b A A' st st' : exchange a b A = Some A' -> exchange a b st = Some st' -> prel A st -> prel A' st'.
Proof.
  intros EA ES P. apply nth_exchange in EA as [_ NA]. apply nth_exchange in ES as [_ NS].
  intros k x v. rewrite NA, NS. destruct (k =? a)%nat; [apply P|]. destruct (k =? b)%nat; apply P.
Qed.
(** Exchange with a slot that is not tracked: the tracked one becomes unknown. *)
Lemma prel_exchange_deep a b A st st' : (length A <= b)%nat -> exchange a b st = Some st' -> prel A st ->
  prel (set_nth a ATop A) st'.
Proof.
  intros Hb ES P. apply nth_exchange in ES as [_ NS].
  intros k x v. rewrite nth_set_nth, NS. destruct (Nat.eqb_spec k a) as [-> |].
  - destruct (a <? length A)%nat; [|discriminate]. intros H _. injection H as <-. exact Logic.I.
  - intros Hx Hv. destruct (Nat.eqb_spec k b) as [-> |]; [apply nth_lt in Hx; lia|]. eapply P; eauto.
Qed.
Lemma set_nth_oob {A} k (v : A) l : (length l <= k)%nat -> set_nth k v l = l.
Proof. revert k. induction l as [|x l IH]; intros [|k] H; cbn in *; auto; [lia|]. f_equal. apply IH. lia. Qed.

(** EIP-8024 decoders. *)
Definition bytes : list Z := map Z.of_nat (seq 0 256).
Lemma in_bytes x : 0 <= x < 256 -> In x bytes.
Proof. intros H. apply in_map_iff. exists (Z.to_nat x). split; [lia|]. apply in_seq. lia. Qed.
Definition single_agree (x : Z) : bool :=
  match decode_single x, eip_single x with
  | Some n, Some m => (n =? Z.of_nat m) && (1 <=? n)
  | None, None => true
  | _, _ => false
  end.
Definition pair_agree (x : Z) : bool :=
  match decode_pair x, eip_pair x with
  | Some (n, m), Some (n', m') => (n =? Z.of_nat n') && (m =? Z.of_nat m') && (n <? m)
  | None, None => true
  | _, _ => false
  end.
Lemma single_agree_all : forallb single_agree bytes = true. Proof. vm_compute. reflexivity. Qed.
Lemma pair_agree_all : forallb pair_agree bytes = true. Proof. vm_compute. reflexivity. Qed.
Lemma decode_single_eip x : 0 <= x < 256 ->
  (exists n, decode_single x = Some (Z.of_nat n) /\ eip_single x = Some n /\ (1 <= n)%nat) \/ (decode_single x = None /\ eip_single x = None).
Proof.
  intros H. pose proof (proj1 (forallb_forall _ _) single_agree_all x (in_bytes x H)) as E. unfold single_agree in E.
  destruct (decode_single x) as [n|], (eip_single x) as [m|]; try discriminate; [|right; auto].
  left. exists m. repeat split; try lia. f_equal. lia.
Qed.
Lemma decode_pair_eip x : 0 <= x < 256 ->
  (exists n m, decode_pair x = Some (Z.of_nat n, Z.of_nat m) /\ eip_pair x = Some (n, m) /\ (n < m)%nat) \/ (decode_pair x = None /\ eip_pair x = None).
Proof.
  intros H. pose proof (proj1 (forallb_forall _ _) pair_agree_all x (in_bytes x H)) as E. unfold pair_agree in E.
  destruct (decode_pair x) as [[n m]|], (eip_pair x) as [[n' m']|]; try discriminate; [|right; auto].
  left. exists n', m'. repeat split; try lia. f_equal. f_equal; lia.
Qed.

(** ** One instruction. *)
Section Inst.
  Context {Y : Type} (prog : list idata) (env : aenv)
          (sem : nat -> list Z -> Y -> option (list Z * Y)) (y0 : Y).
  Notation const := (a_const env).
  Notation dest := (a_dest env).
  Notation exec := (evm_exec const dest sem).
  Notation step := (evm_step prog const dest sem).
  Notation R := (reach prog const dest sem y0).
  Hypothesis PO : prog_ok prog const dest.
  Hypothesis SO : sem_ok prog const sem (a_codelen env).

  Lemma exec_same i d0 d st y : same d0 d -> exec i d0 st y = exec i d st y.
  Proof. intros (E1 & E2 & E3 & E4 & _). unfold evm_exec. rewrite E1, E2, E3, E4. reflexivity. Qed.

  Lemma as_const_gamma a v : as_const a <> None -> gamma a v -> as_const a = Some v.
  Proof. destruct a; cbn; intros H G; congruence. Qed.

  (** Known operands are the concrete ones. *)
  Lemma known_inputs n A st vs : prel A st -> (n <= length A)%nat -> (n <= length st)%nat ->
    map Some vs = avals_const (rev (firstn n A)) -> rev vs = firstn n st.
  Proof.
    intros P LA LS E. unfold avals_const in E. rewrite map_rev in E.
    assert (E1 : map Some (rev vs) = map as_const (firstn n A)) by (rewrite map_rev, E, rev_involutive; reflexivity).
    clear E. remember (rev vs) as ws eqn:Ew. clear Ew vs.
    revert A st ws P LA LS E1. induction n as [|n IH]; intros A st ws P LA LS E.
    - cbn in *. destruct ws; [reflexivity|discriminate].
    - destruct A as [|a A]; [cbn in LA; lia|]. destruct st as [|v st]; [cbn in LS; lia|].
      destruct ws as [|w ws]; [discriminate|]. cbn [firstn map] in *. injection E as E0 E1.
      assert (G : gamma a v) by (apply (P 0%nat a v); reflexivity).
      rewrite (as_const_gamma a v) in E0; [|congruence|exact G]. injection E0 as ->. f_equal.
      eapply IH; eauto; [eapply prel_tail; eauto|cbn in *; lia..].
  Qed.
  Lemma ok_inputs n A st : prel A st -> (n <= length A)%nat -> (n <= length st)%nat -> Forall is_word st ->
    Forall ok_input (avals_const (rev (firstn n A))).
  Proof.
    intros P LA LS WS. unfold avals_const. rewrite map_rev. apply Forall_rev.
    revert A st P LA LS WS. induction n as [|n IH]; intros A st P LA LS WS; [constructor|].
    destruct A as [|a A]; [cbn in LA; lia|]. destruct st as [|v st]; [cbn in LS; lia|].
    inversion WS; subst. cbn [firstn map]. constructor.
    - assert (G : gamma a v) by (apply (P 0%nat a v); reflexivity). unfold ok_input. destruct a; cbn in *; subst; auto.
    - eapply IH; eauto; [eapply prel_tail; eauto|cbn in *; lia..].
  Qed.

  Lemma fold_inst_cases i d ins used r u : fold_inst env i d ins used = (r, u) ->
    r = None \/ exists v, r = Some (AConst v) /\ try_const_fold (d_op d) (const i) (a_codelen env) (avals_const ins) = Some v.
  Proof.
    unfold fold_inst. intros H. destruct (_ && _); [|injection H as <- _; auto].
    destruct (const_fold_gas _ _); [|injection H as <- _; auto]. destruct (_ <=? _); [|injection H as <- _; auto].
    destruct (try_const_fold _ _ _ _) as [v|]; injection H as <- _; eauto.
  Qed.

  Lemma stack_words st : Forall is_word st -> forall n, Forall is_word (firstn n st) /\ Forall is_word (skipn n st).
  Proof. intros H n. rewrite <- (firstn_skipn n st) in H. apply Forall_app in H. exact H. Qed.

  (** The instruction is one of those the interpreter treats explicitly. *)
  Lemma exec_other i d st y j st' y' :
    exec i d st y = Some (j, st', y') ->
    (0x5f <=? d_op d) && (d_op d <=? 0x7f) = false -> d_op d =? 0x50 = false ->
    (0x80 <=? d_op d) && (d_op d <=? 0x8f) = false -> (0x90 <=? d_op d) && (d_op d <=? 0x9f) = false ->
    d_op d =? 0xe6 = false -> d_op d =? 0xe7 = false -> d_op d =? 0xe8 = false ->
    (d_op d = 0x56 /\ exists t, st = t :: st') \/
    (d_op d = 0x57 /\ exists t c, st = t :: c :: st') \/
    (d_op d <> 0x56 /\ d_op d <> 0x57 /\ exists outs, (Z.to_nat (fst (d_io d)) <= length st)%nat /\
       sem i (firstn (Z.to_nat (fst (d_io d))) st) y = Some (outs, y') /\ st' = outs ++ skipn (Z.to_nat (fst (d_io d))) st).
  Proof.
    intros H E1 E2 E3 E4 E5 E6 E7. unfold evm_exec in H. rewrite E1, E2, E3, E4, E5, E6, E7 in H.
    destruct (_ || _); [discriminate|].
    destruct (d_op d =? 0x56) eqn:E8.
    { left. split; [lia|]. destruct st as [|t s]; [discriminate|]. destruct (dest t); [|discriminate]. injection H as _ <- _. eauto. }
    destruct (d_op d =? 0x57) eqn:E9.
    { right; left. split; [lia|]. destruct st as [|t [|c s]]; [discriminate..|]. exists t, c.
      destruct (c =? 0); [injection H as _ <- _; auto|]. destruct (dest t); [|discriminate]. injection H as _ <- _. auto. }
    right; right. split; [lia|]. split; [lia|].
    destruct (existsb _ _); [discriminate|]. destruct (Nat.ltb_spec (length st) (Z.to_nat (fst (d_io d)))); [discriminate|].
    destruct (sem _ _ _) as [[o y1]|]; [|discriminate].
    apply (f_equal (fun x => match x with Some q => q | None => (j, st', y') end)) in H.
    apply pair_equal_spec in H as [H <-]. apply pair_equal_spec in H as [_ <-]. exists o. auto.
  Qed.

  Lemma nth_words st k v : Forall is_word st -> nth_error st k = Some v -> is_word v.
  Proof. intros H Hn. rewrite Forall_forall in H. apply H. eapply nth_error_In; eauto. Qed.
  Lemma exchange_words a b st st' : Forall is_word st -> exchange a b st = Some st' -> Forall is_word st'.
  Proof.
    intros H E. apply nth_exchange in E as [_ N]. rewrite Forall_forall. intros v Hv. apply In_nth_error in Hv as [k Hk].
    rewrite N in Hk. destruct (k =? a)%nat; [|destruct (k =? b)%nat]; eapply nth_words; eauto.
  Qed.

  Lemma exec_words i d0 st y j st' y' : nth_error prog i = Some d0 -> exec i d0 st y = Some (j, st', y') ->
    Forall is_word st -> Forall is_word st'.
  Proof.
    intros Hn H WS. pose proof H as H'.
    unfold evm_exec in H. destruct (f_disabled _ || _) eqn:Ef; [discriminate|].
    destruct ((0x5f <=? d_op d0) && (d_op d0 <=? 0x7f)) eqn:E1.
    { injection H as _ <- _. constructor; [apply (po_const _ _ _ PO)|exact WS]. }
    destruct (d_op d0 =? 0x50) eqn:E2.
    { destruct st; [discriminate|]. injection H as _ <- _. inversion WS; auto. }
    destruct ((0x80 <=? d_op d0) && (d_op d0 <=? 0x8f)) eqn:E3.
    { destruct (nth_error st _) eqn:En; [|discriminate]. injection H as _ <- _. constructor; [eapply nth_words; eauto|exact WS]. }
    destruct ((0x90 <=? d_op d0) && (d_op d0 <=? 0x9f)) eqn:E4.
    { apply keep_some in H as (s & Es & H). injection H as _ -> _. eapply exchange_words; eauto. }
    destruct (d_op d0 =? 0xe6) eqn:E5.
    { destruct (eip_single _); [|discriminate]. destruct (nth_error st _) eqn:En; [|discriminate]. injection H as _ <- _.
      constructor; [eapply nth_words; eauto|exact WS]. }
    destruct (d_op d0 =? 0xe7) eqn:E6.
    { destruct (eip_single _); [|discriminate]. apply keep_some in H as (s & Es & H). injection H as _ -> _. eapply exchange_words; eauto. }
    destruct (d_op d0 =? 0xe8) eqn:E7.
    { destruct (eip_pair _) as [[? ?]|]; [|discriminate]. apply keep_some in H as (s & Es & H). injection H as _ -> _. eapply exchange_words; eauto. }
    destruct (exec_other _ _ _ _ _ _ _ H' E1 E2 E3 E4 E5 E6 E7) as [(_ & t & ->)|[(_ & t & c & ->)|(_ & _ & outs & _ & Hs & ->)]].
    - inversion WS; auto.
    - inversion WS as [|? ? ? X]; inversion X; auto.
    - apply Forall_app. split; [eapply (so_len _ _ _ _ SO); eauto|apply stack_words; exact WS].
  Qed.

  Lemma reach_words i st y : R i st y -> Forall is_word st.
  Proof.
    induction 1 as [|i st y j st' y' HR IH Hs]; [constructor|].
    unfold evm_step in Hs. destruct (nth_error prog i) as [d0|] eqn:E; [|discriminate].
    destruct (exec i d0 st y) as [[[j1 s1] y1]|] eqn:He; [|discriminate]. destruct (length s1 <=? 1024)%nat; [|discriminate].
    injection Hs as -> -> ->.
    eapply exec_words; eauto.
  Qed.
  Lemma reach_len i st y : R i st y -> (length st <= 1024)%nat.
  Proof.
    destruct 1 as [|i st y j st' y' HR Hs]; [cbn; lia|].
    unfold evm_step in Hs. destruct (nth_error prog i) as [d0|] eqn:E; [|discriminate].
    destruct (exec _ _ _ _) as [[[j1 s1] y1]|]; [|discriminate]. destruct (Nat.leb_spec (length s1) 1024); [|discriminate].
    congruence.
  Qed.

  Lemma interp_sound i d0 d A used A' used' st y j st' y' :
    nth_error prog i = Some d0 -> same d0 d ->
    exec i d st y = Some (j, st', y') -> Forall is_word st -> prel A st ->
    interp_inst env i d A used = (Some A', used') ->
    prel A' st' /\ (length A' + length st = length A + length st')%nat.
  Proof.
    intros Hn SM H WS P HI.
    assert (Hex := H). unfold evm_exec in H. destruct (f_disabled (d_flags d) || f_unknown (d_flags d)) eqn:Ef; [discriminate|].
    assert (Op : d_op d = d_op d0) by apply SM.
    assert (Ef0 : f_disabled (d_flags d0) || f_unknown (d_flags d0) = false).
    { destruct SM as (_ & _ & E1 & E2 & _). rewrite <- E1, <- E2. exact Ef. }
    pose proof (po_io _ _ _ PO i d0 Hn Ef0) as IO. destruct SM as (_ & Eio & _). rewrite <- Eio, <- Op in IO.
    destruct IO as (I1 & I2 & Ipush & Ipop & Idup & Iswap & Idn & Isn & Iex & Ij & Iji & _).
    unfold interp_inst in HI. unfold OP_PUSH0, OP_PUSH32, OP_POP, OP_DUPN, OP_SWAPN, OP_EXCHANGE in HI.
    destruct ((0x5f <=? d_op d) && (d_op d <=? 0x7f)) eqn:E1.
    { injection H as _ <- _. injection HI as <- _. split; [|cbn; lia]. apply prel_cons; [reflexivity|exact P]. }
    destruct (d_op d =? 0x50) eqn:E2.
    { destruct st as [|v st]; [discriminate|]. injection H as _ <- _. destruct A as [|a A]; [discriminate|]. injection HI as <- _.
      split; [eapply prel_tail; eauto|cbn; lia]. }
    destruct ((0x80 <=? d_op d) && (d_op d <=? 0x8f)) eqn:E3.
    { destruct (nth_error st _) as [v|] eqn:En; [|discriminate]. injection H as _ <- _.
      destruct (nth_error A _) as [a|] eqn:Ea; [|discriminate]. injection HI as <- _.
      split; [|cbn; lia]. apply prel_cons; [eapply P; eauto|exact P]. }
    destruct ((0x90 <=? d_op d) && (d_op d <=? 0x9f)) eqn:E4.
    { apply keep_some in H as (s & Es & H). injection H as _ -> _.
      replace (d_op d - 0x90 + 1) with (d_op d - 0x8f) in HI by lia.
      destruct (Nat.ltb_spec (length A) (Z.to_nat (d_op d - 0x8f) + 1)); [discriminate|]. injection HI as <- _.
      assert (X : exchange 0 (Z.to_nat (d_op d - 0x8f)) A = Some (aswap 0 (Z.to_nat (d_op d - 0x8f)) A)) by (apply aswap_exchange; lia).
      split; [eapply prel_exchange; eauto|]. apply nth_exchange in X as [X _]. apply nth_exchange in Es as [Es _]. lia. }
    assert (Byte : 0xe6 <= d_op d <= 0xe8 -> 0 <= const i < 256) by (rewrite Op; apply (po_byte _ _ _ PO i d0 Hn)).
    destruct (d_op d =? 0xe6) eqn:E5.
    { destruct (decode_single_eip (const i)) as [(n & D1 & D2 & D3)|[D1 D2]]; [apply Byte; lia|..]; rewrite D1, D2 in *; [|discriminate].
      destruct (nth_error st (n - 1)) as [v|] eqn:En; [|discriminate]. injection H as _ <- _. rewrite Nat2Z.id in HI.
      destruct (Nat.ltb_spec (length A) n).
      - injection HI as <- _. split; [|cbn; lia]. apply prel_cons; [exact Logic.I|exact P].
      - destruct (nth_error A (n - 1)) as [a|] eqn:Ea; [|discriminate]. injection HI as <- _.
        split; [|cbn; lia]. apply prel_cons; [eapply P; eauto|exact P]. }
    destruct (d_op d =? 0xe7) eqn:E6.
    { destruct (decode_single_eip (const i)) as [(n & D1 & D2 & D3)|[D1 D2]]; [apply Byte; lia|..]; rewrite D1, D2 in *; [|discriminate].
      apply keep_some in H as (s & Es & H). injection H as _ -> _. rewrite Nat2Z.id in HI.
      pose proof (nth_exchange _ _ _ _ Es) as [Ls _].
      destruct (Nat.ltb_spec (length A) (n + 1)).
      - assert (HA : A' = aset_nth 0 ATop A) by congruence. rewrite HA, aset_nth_eq. rewrite set_nth_length. split; [|lia]. apply (prel_exchange_deep 0 n A st s); [lia|auto..].
      - injection HI as <- _. assert (X : exchange 0 n A = Some (aswap 0 n A)) by (apply aswap_exchange; lia).
        split; [eapply prel_exchange; eauto|]. apply nth_exchange in X as [X _]. lia. }
    destruct (d_op d =? 0xe8) eqn:E7.
    { destruct (decode_pair_eip (const i)) as [(n & m & D1 & D2 & D3)|[D1 D2]]; [apply Byte; lia|..]; rewrite D1, D2 in *; [|discriminate].
      apply keep_some in H as (s & Es & H). injection H as _ -> _. rewrite !Nat2Z.id in HI.
      pose proof (nth_exchange _ _ _ _ Es) as [Ls _].
      destruct (Nat.ltb_spec (length A) (m + 1)).
      - injection HI as <- _.
        replace (if (n <? length A)%nat then aset_nth n ATop A else A) with (set_nth n ATop A).
        + rewrite set_nth_length. split; [|lia]. apply (prel_exchange_deep n m A st s); [lia|auto..].
        + destruct (Nat.ltb_spec n (length A)); [rewrite aset_nth_eq; reflexivity|apply set_nth_oob; lia].
      - injection HI as <- _. assert (X : exchange n m A = Some (aswap n m A)) by (apply aswap_exchange; lia).
        split; [eapply prel_exchange; eauto|]. apply nth_exchange in X as [X _]. lia. }
    destruct (Nat.ltb_spec (length A) (Z.to_nat (fst (d_io d)))) as [|LA]; [discriminate|].
    destruct (fold_inst env i d (rev (firstn (Z.to_nat (fst (d_io d))) A)) used) as [r u] eqn:Er. injection HI as <- _.
    destruct (exec_other _ _ _ _ _ _ _ Hex E1 E2 E3 E4 E5 E6 E7) as [(O & t & ->)|[(O & t & c & ->)|(O1 & O2 & outs & LS & Hs & ->)]].
    - rewrite (Ij O) in *. cbn [fst snd] in *. change (Z.to_nat 1) with 1%nat in *.
      assert (r = None). { unfold fold_inst in Er. rewrite (Ij O) in Er. cbn in Er. congruence. } subst r.
      destruct A as [|a A]; [cbn in LA; lia|]. cbn. split; [eapply prel_tail; eauto|lia].
    - rewrite (Iji O) in *. cbn [fst snd] in *. change (Z.to_nat 2) with 2%nat in *.
      assert (r = None). { unfold fold_inst in Er. rewrite (Iji O) in Er. cbn in Er. congruence. } subst r.
      destruct A as [|a [|b A]]; [cbn in LA; lia..|]. cbn. split; [eapply prel_tail, prel_tail; eauto|lia].
    - set (inp := Z.to_nat (fst (d_io d))) in *.
      destruct (so_len _ _ _ _ SO i d0 _ _ _ _ Hn Hs) as [Lo _]. rewrite <- Eio in Lo.
      destruct (fold_inst_cases _ _ _ _ _ _ Er) as [-> |(v & -> & Hv)].
      + split; [apply prel_app_tops; [exact Lo|apply prel_skipn; exact P]|].
        rewrite !app_length, repeat_length, !skipn_length. lia.
      + assert (HO : outs = [v]).
        { destruct (try_const_fold_spec _ _ _ _ _ (ok_inputs inp A st P LA LS WS) Hv) as [[Ho ->]|[[Ho ->]|(o & vs & Ho & Hvs & He)]].
          - eapply (so_codesize _ _ _ _ SO); eauto. congruence.
          - eapply (so_pc _ _ _ _ SO); eauto. congruence.
          - eapply (so_arith _ _ _ _ SO i d0 o _ y outs y' v Hn); [congruence|exact Hs|].
            rewrite <- (known_inputs inp A st vs P LA LS Hvs). exact He. }
        subst outs. cbn. split; [apply prel_cons; [reflexivity|apply prel_skipn; exact P]|].
        rewrite !skipn_length. lia.
  Qed.

  (** If the interpreter gives up on an instruction the EVM executes, the abstract stack was too short. *)
  Lemma interp_none i d0 d A used used' st y z :
    nth_error prog i = Some d0 -> same d0 d -> exec i d st y = Some z ->
    interp_inst env i d A used = (None, used') -> (Z.of_nat (length A) < fst (d_io d)) /\
      (fst (d_io d) <= Z.of_nat (length st)).
  Proof.
    intros Hn SM H HI. destruct z as [[j st'] y'].
    assert (Hex := H). unfold evm_exec in H. destruct (f_disabled (d_flags d) || f_unknown (d_flags d)) eqn:Ef; [discriminate|].
    assert (Op : d_op d = d_op d0) by apply SM.
    assert (Ef0 : f_disabled (d_flags d0) || f_unknown (d_flags d0) = false).
    { destruct SM as (_ & _ & E1 & E2 & _). rewrite <- E1, <- E2. exact Ef. }
    pose proof (po_io _ _ _ PO i d0 Hn Ef0) as IO. destruct SM as (_ & Eio & _). rewrite <- Eio, <- Op in IO.
    destruct IO as (I1 & I2 & Ipush & Ipop & Idup & Iswap & Idn & Isn & Iex & Ij & Iji & _).
    unfold interp_inst in HI. unfold OP_PUSH0, OP_PUSH32, OP_POP, OP_DUPN, OP_SWAPN, OP_EXCHANGE in HI.
    destruct ((0x5f <=? d_op d) && (d_op d <=? 0x7f)) eqn:E1; [discriminate|].
    destruct (d_op d =? 0x50) eqn:E2.
    { destruct st; [discriminate|]. destruct A; [|discriminate]. rewrite Ipop by lia. cbn. lia. }
    destruct ((0x80 <=? d_op d) && (d_op d <=? 0x8f)) eqn:E3.
    { destruct (nth_error st _) eqn:Es; [|discriminate]. apply nth_lt in Es.
      destruct (nth_error A _) eqn:Ea; [discriminate|]. apply nth_error_None in Ea. rewrite Idup by lia. cbn [fst]. lia. }
    destruct ((0x90 <=? d_op d) && (d_op d <=? 0x9f)) eqn:E4.
    { apply keep_some in H as (s & Es & H).
      unfold exchange in Es. destruct (nth_error st 0); [|discriminate]. destruct (nth_error st (Z.to_nat _)) eqn:E; [|discriminate].
      apply nth_lt in E.
      destruct (Nat.ltb_spec (length A) (Z.to_nat (d_op d - 0x90 + 1) + 1)); [|discriminate]. rewrite Iswap by lia. cbn [fst]. lia. }
    assert (Byte : 0xe6 <= d_op d <= 0xe8 -> 0 <= const i < 256) by (rewrite Op; apply (po_byte _ _ _ PO i d0 Hn)).
    destruct (d_op d =? 0xe6) eqn:E5.
    { destruct (decode_single_eip (const i)) as [(n & D1 & D2 & D3)|[D1 D2]]; [apply Byte; lia|..]; rewrite D1, D2 in *; [|discriminate].
      rewrite Nat2Z.id in HI. destruct (Nat.ltb_spec (length A) n); [discriminate|].
      destruct (nth_error A (n - 1)) eqn:Ea; [discriminate|]. apply nth_error_None in Ea. lia. }
    destruct (d_op d =? 0xe7) eqn:E6.
    { destruct (decode_single_eip (const i)) as [(n & D1 & D2 & D3)|[D1 D2]]; [apply Byte; lia|..]; rewrite D1, D2 in *; [|discriminate].
      destruct (_ <? _)%nat; discriminate. }
    destruct (d_op d =? 0xe8) eqn:E7.
    { destruct (decode_pair_eip (const i)) as [(n & m & D1 & D2 & D3)|[D1 D2]]; [apply Byte; lia|..]; rewrite D1, D2 in *; [|discriminate].
      destruct (_ <? _)%nat; discriminate. }
    destruct (Nat.ltb_spec (length A) (Z.to_nat (fst (d_io d)))) as [LA|]; [|destruct (fold_inst _ _ _ _ _); discriminate].
    split; [lia|].
    destruct (exec_other _ _ _ _ _ _ _ Hex E1 E2 E3 E4 E5 E6 E7) as [(O & t & ->)|[(O & t & c & ->)|(O1 & O2 & outs & LS & Hs & ->)]].
    - rewrite (Ij O). cbn. lia.
    - rewrite (Iji O). cbn. lia.
    - lia.
  Qed.
End Inst.
