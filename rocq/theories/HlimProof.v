(** Proofs about limits and process groups. *)
From Verif Require Export HlimSpec.

Lemma count_none : forall (l : cpu_set), count (map (fun _ => false) l) = 0.
Proof. induction l as [|b l IH]; [reflexivity | exact IH]. Qed.
Lemma nth_none : forall (l : cpu_set) i, nth i (map (fun _ => false) l) false = false.
Proof. induction l as [|b l IH]; intros [|i]; cbn; auto. Qed.
Lemma pick_spec : forall cur r, 0 < r -> exists l r', pick cur r = Some (l, r')
  /\ List.length l = List.length cur
  /\ (forall i, allowed l i -> allowed cur i)
  /\ count l = Nat.min r (count cur) /\ r' + count l = r
  /\ (forall i j, allowed l j -> i < j -> allowed cur i -> allowed l i).
Proof.
  unfold allowed. induction cur as [|b cur IH]; intros r Hr.
  - exists [], r. split; [reflexivity|]. split; [reflexivity|]. split; [auto|]. cbn. split; [lia|]. split; [lia|]. auto.
  - destruct b.
    + destruct r as [|[|r]]; [lia| |].
      * exists (true :: map (fun _ => false) cur), 0. cbn [pick]. split; [reflexivity|]. split; [cbn; rewrite map_length; reflexivity|].
        split; [|split; [|split]].
        -- intros [|i] H; [reflexivity|]. cbn [nth] in H. rewrite nth_none in H. discriminate H.
        -- unfold count at 1. cbn [filter List.length]. fold (count (map (fun _ => false) cur)). rewrite count_none. unfold count. cbn [filter List.length]. lia.
        -- unfold count. cbn [filter List.length]. fold (count (map (fun _ => false) cur)). rewrite count_none. lia.
        -- intros i [|j] H Hl; [lia|]. cbn [nth] in H. rewrite nth_none in H. discriminate H.
      * destruct (IH (S r)) as (l & r' & E & A & B & C & D & F); [lia|]. exists (true :: l), r'. cbn [pick]. cbn [pick] in E. rewrite E.
        split; [reflexivity|]. split; [cbn; rewrite A; reflexivity|]. split; [|split; [|split]].
        -- intros [|i] H; [reflexivity | exact (B i H)].
        -- unfold count in *. cbn [filter List.length]. lia.
        -- unfold count in *. cbn [filter List.length]. lia.
        -- intros [|i] [|j] H Hl Hi; try lia; [reflexivity|]. apply (F i j); [exact H | lia | exact Hi].
    + destruct (IH r Hr) as (l & r' & E & A & B & C & D & F). exists (false :: l), r'. cbn [pick]. rewrite E.
      split; [reflexivity|]. split; [cbn; rewrite A; reflexivity|]. split; [|split; [exact C|split; [exact D|]]].
      * intros [|i] H; [discriminate H | exact (B i H)].
      * intros [|i] [|j] H Hl Hi; try lia; [discriminate Hi|]. apply (F i j); [exact H | lia | exact Hi].
Qed.

(** The family stays in the group, and nobody else is in it. *)
Definition grouped (pid : nat) (f : list nat) (t : table) : Prop :=
  forall x, In x t -> (snd x = pid <-> In (fst x) f).
Lemma fresh_grouped : forall l pid f t seen, grouped pid f t -> (forall q, In q f -> In q seen) -> (forall x, In x t -> In (fst x) seen) ->
  fresh l t seen -> grouped pid (family l f) (sys l t).
Proof.
  induction l as [|e l IH]; intros pid f t seen HG HF HT HR; [exact HG|]. unfold sys. cbn [fold_left]. fold (sys l (sys1 t e)).
  destruct e as [p q | p]; cbn [fresh family] in *.
  - destruct HR as (N1 & N2 & N3 & HR). apply (IH _ _ _ (q :: seen)); [| | |exact HR].
    + cbn [sys1]. destruct (find (fun x => fst x =? p) t) as [[p' g]|] eqn:E.
      * apply find_some in E. destruct E as [Hin Hp]. cbn [fst] in Hp. apply Nat.eqb_eq in Hp. subst p'. cbn [snd].
        pose proof (HG (p, g) Hin) as K. cbn [fst snd] in K. intros x [<- | Hx]; cbn [fst snd].
        -- destruct (existsb (Nat.eqb p) f) eqn:Ef.
           ++ apply existsb_exists in Ef. destruct Ef as (y & Hy & Ey). apply Nat.eqb_eq in Ey. subst y. rewrite K. split; [intros _; left; reflexivity | intros _; exact Hy].
           ++ split; [|intros Hq; exfalso; apply N1; apply HF; exact Hq]. intros Hg. apply K in Hg. exfalso.
              assert (existsb (Nat.eqb p) f = true) as Q by (apply existsb_exists; exists p; split; [exact Hg | apply Nat.eqb_refl]). rewrite Q in Ef. discriminate Ef.
        -- rewrite (HG x Hx). destruct (existsb (Nat.eqb p) f); [|reflexivity]. split; [intros H; right; exact H|].
           intros [H | H]; [exfalso; apply N2; rewrite H; apply in_map; exact Hx | exact H].
      * intros x Hx. rewrite (HG x Hx). destruct (existsb (Nat.eqb p) f); [|reflexivity]. split; [intros H; right; exact H|].
        intros [H | H]; [exfalso; apply N2; rewrite H; apply in_map; exact Hx | exact H].
    + intros y Hy. destruct (existsb (Nat.eqb p) f); [destruct Hy as [<- | Hy]; [left; reflexivity|]|]; right; apply HF; exact Hy.
    + cbn [sys1]. destruct (find (fun x => fst x =? p) t) as [y|]; intros x Hx; [destruct Hx as [<- | Hx]; [left; reflexivity|]|]; right; apply HT; exact Hx.
  - apply (IH _ _ _ seen); [| exact HF | |exact HR]; cbn [sys1].
    + intros x Hx. apply filter_In in Hx. apply HG. apply Hx.
    + intros x Hx. apply filter_In in Hx. apply HT. apply Hx.
Qed.
