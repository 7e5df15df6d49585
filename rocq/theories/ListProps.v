(** C62: the lines of the debug information and the abbreviated constants. *)
From Verif Require Import ListProof.

(** The line number recorded for an instruction is that of the line of bytecode.txt that shows it. *)
Theorem C62_lines : forall L i, good L -> listed L i ->
  exists k l, nth i (inst_lines L) 0 = S k /\ nth_error (lines_of (display_plain L)) k = Some l /\ shows L i l.
Proof.
  intros L i HG HL. apply listed_in in HL. destruct (inv_collect L HG) as (_ & B & _). destruct (B i (proj1 HL) (proj2 HL)) as (k & Hk & Hn).
  exists k, (line (comment_col (fst (collect_lines L))) (inst_text L i, inst_comment L i)). split; [exact Hk|]. split; [|apply line_shows].
  rewrite lines_of_listing by exact HG. rewrite nth_error_map, Hn. reflexivity.
Qed.
(** Dead instructions and those outside blocks have no line; different instructions have different lines; every
    instruction has an entry. *)
Theorem C62_unlisted : forall L, good L -> List.length (inst_lines L) = l_n L
  /\ (forall i, ~ listed L i -> nth i (inst_lines L) 0 = 0)
  /\ (forall i j, listed L i -> listed L j -> nth i (inst_lines L) 0 = nth j (inst_lines L) 0 -> i = j).
Proof.
  intros L HG. destruct (inv_collect L HG) as (A & B & C & _ & E). split; [exact A|]. split.
  - intros i Hi. apply C. rewrite <- listed_in. exact Hi.
  - intros i j Hi _ H. apply E; [|exact H]. apply listed_in in Hi. destruct (B i (proj1 Hi) (proj2 Hi)) as (k & Hk & _). unfold inst_lines in *. rewrite Hk. discriminate.
Qed.
(** The annotation of a dump with the line of an instruction is that line without the white space around it; the
    line number 0 of a dead instruction gives none. *)
Theorem C62_annotation : forall L i, good L ->
  (listed L i -> exists l t, shows L i l /\ trimmed l t /\ t <> [] /\ resolve (lines_of (display_plain L)) (nth i (inst_lines L) 0) = Some t)
  /\ (~ listed L i -> resolve (lines_of (display_plain L)) (nth i (inst_lines L) 0) = None).
Proof.
  intros L i HG. split.
  - intros HL. destruct (C62_lines L i HG HL) as (k & l & Hk & Hl & Hs). exists l, (trim l).
    assert (NE : trim l <> []).
    { apply (trimmed_nonempty l (trim l) ";"%char); [apply trim_spec| |].
      - destruct Hs as (u & v & w & _ & _ & _ & ->). apply in_or_app. right. apply in_or_app. right. apply in_or_app. right. apply in_or_app. left.
        right; left; reflexivity.
      - intros W. specialize (W _ (or_introl eq_refl)). cbn in W. intuition discriminate. }
    split; [exact Hs|]. split; [apply trim_spec|]. split; [exact NE|]. rewrite Hk. cbn [resolve]. rewrite Hl. destruct (trim l); [contradiction NE; reflexivity | reflexivity].
  - intros HL. rewrite (proj1 (proj2 (C62_unlisted L HG)) i HL). reflexivity.
Qed.

(** A constant is abbreviated only if it starts with four equal bytes or more; these are shown once. *)
Theorem C62_abbreviated : forall s, abbreviate_hex s = s \/
  exists pre x y r suf, r >= 4 /\ s = pre ++ lit "0x" ++ pairs r [x; y] ++ suf /\ (forall t, suf <> x :: y :: t)
  /\ abbreviate_hex s = pre ++ lit "0x" ++ [x; y] ++ lit ".." ++ suf.
Proof. exact abbreviate_spec. Qed.
(** Nothing is lost: of two instructions of the same length, those abbreviated alike are alike. *)
Theorem C62_lossless : forall s s', List.length s = List.length s' -> ~ In "."%char s -> ~ In "."%char s' ->
  abbreviate_hex s = abbreviate_hex s' -> s = s'.
Proof.
  assert (D : forall pre x y suf, In "."%char (pre ++ lit "0x" ++ [x; y] ++ lit ".." ++ suf)).
  { intros. apply in_or_app; right. apply in_or_app; right. apply in_or_app; right. left; reflexivity. }
  intros s s' HL H H' E.
  destruct (abbreviate_spec s) as [Q | (pre & x & y & r & suf & Hr & Hs & _ & Q)];
  destruct (abbreviate_spec s') as [Q' | (pre' & x' & y' & r' & suf' & Hr' & Hs' & _ & Q')]; rewrite Q, Q' in E.
  - exact E.
  - exfalso. apply H. rewrite E. apply D.
  - exfalso. apply H'. rewrite <- E. apply D.
  - assert (N : forall p a b q u, 4 <= q -> ~ In "."%char (p ++ lit "0x" ++ pairs q [a; b] ++ u) -> ~ In "."%char (p ++ lit "0x" ++ [a; b])).
    { intros p a b q u Hq K F. apply K. apply in_app_or in F. destruct F as [F | F]; [apply in_or_app; left; exact F|]. apply in_or_app; right.
      apply in_app_or in F. destruct F as [F | F]; [apply in_or_app; left; exact F|]. apply in_or_app; right. apply in_or_app; left.
      destruct q as [|q]; [lia|]. cbn [pairs]. apply in_or_app; left; exact F. }
    rewrite Hs in H. rewrite Hs' in H'.
    destruct (split_dot (pre ++ lit "0x" ++ [x; y]) (pre' ++ lit "0x" ++ [x'; y']) ("."%char :: suf) ("."%char :: suf') "."%char) as [E1 E2].
    + apply (N _ _ _ r suf Hr H).
    + apply (N _ _ _ r' suf' Hr' H').
    + rewrite <- !app_assoc. exact E.
    + apply app_eq_len in E1; [|reflexivity]. destruct E1 as [-> E1]. injection E1 as -> ->. injection E2 as ->.
      rewrite Hs, Hs' in HL |- *. rewrite !app_length, !pairs_length in HL. cbn [List.length] in HL. assert (r = r') as -> by lia. reflexivity.
Qed.

(** Two blocks, a dead instruction in each, one instruction outside blocks. *)
Definition C62_L : bytecode := mkL 6 (lit "spec_id=Osaka") (lit "insts=6")
  [mkB (lit "bb0:") (lit "predecessors=") [0; 1; 2]; mkB (lit "bb1:") (lit "predecessors=bb0") [4; 5]]
  (fun i => (i =? 1) || (i =? 5)) (fun i => match i with 0 => lit "PUSH1 0x04" | 2 => lit "JUMP %bb1" | _ => lit "JUMPDEST" end) (fun i => 3 * i)
  (fun _ => lit " gas=3").
Example C62_good : good C62_L /\ listed C62_L 0 /\ listed C62_L 4 /\ ~ listed C62_L 3 /\ ~ listed C62_L 5
  /\ inst_lines C62_L = [5; 0; 6; 0; 9; 0]
  /\ nth_error (lines_of (display_plain C62_L)) 8 = Some (lit "  JUMPDEST   ; ic=4 pc=12 gas=3")
  /\ resolve (lines_of (display_plain C62_L)) 9 = Some (lit "JUMPDEST   ; ic=4 pc=12 gas=3").
Proof.
  split; [|split; [|split; [|split; [|split; [|split; [|split]]]]]].
  - split; [|split; [|split; [|split; [|split; [|split]]]]].
    + cbn. repeat constructor; cbn; intuition discriminate.
    + intros b i [<- | [<- | []]]; cbn; intuition lia.
    + apply cleanb_ok; reflexivity.
    + apply cleanb_ok; reflexivity.
    + intros b [<- | [<- | []]]; split; apply cleanb_ok; reflexivity.
    + intros [|[|[|i]]]; apply cleanb_ok; reflexivity.
    + intros i; apply cleanb_ok; reflexivity.
  - split; [reflexivity|]. eexists. split; [left; reflexivity | left; reflexivity].
  - split; [reflexivity|]. eexists. split; [right; left; reflexivity | left; reflexivity].
  - intros [_ (b & [<- | [<- | []]] & H)]; cbn in H; intuition discriminate.
  - intros [H _]. discriminate H.
  - vm_compute. reflexivity.
  - vm_compute. reflexivity.
  - vm_compute. reflexivity.
Qed.
Example C62_constants :
  abbreviate_hex (lit "PUSH8 0xffffffffffffffe0") = lit "PUSH8 0xff..e0"
  /\ abbreviate_hex (lit "PUSH4 0xffffffe0") = lit "PUSH4 0xffffffe0"
  /\ abbreviate_hex (lit "PUSH4 0x00000000") = lit "PUSH4 0x00.."
  /\ ~ In "."%char (lit "PUSH8 0xffffffffffffffe0").
Proof. repeat split; try (vm_compute; reflexivity). cbn. intuition discriminate. Qed.

Print Assumptions C62_lines.
Print Assumptions C62_unlisted.
Print Assumptions C62_annotation.
Print Assumptions C62_abbreviated.
Print Assumptions C62_lossless.
