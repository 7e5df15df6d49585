(** What the artifact store should do, from its history of calls alone (C37), and what preloading should
    pick (C39). *)
From Verif Require Export ArtifactModel.
Open Scope Z_scope.

(** Keys that can occur: a 256-bit hash and a known hardfork. *)
Definition wf_key (k : artifact_key) : Prop := 0 <= fst (a_run k) < 2 ^ 256 /\ 0 <= snd (a_run k) < 15.
Definition op_key (o : op) : option artifact_key := match o with OStore k _ _ _ | ODelete k _ => Some k | OClear _ => None end.
Definition wf_ops (l : list op) : Prop := forall o k, In o l -> op_key o = Some k -> wf_key k.

(** [latest k l m b]: in the history [l] the last call that touches [k] is a successful store of manifest
    [m] and bytes [b]; later calls are about other keys or failed. *)
Definition touches (k : artifact_key) (o : op) : Prop :=
  match o with OStore k' _ _ r => k' = k /\ r = WOk | ODelete k' _ => k' = k | OClear _ => True end.
Definition latest (k : artifact_key) (l : list op) (m : manifest) (b : list Z) : Prop :=
  exists l1 l2, l = l1 ++ OStore k m b WOk :: l2 /\ forall o, In o l2 -> ~ touches k o.
(** No store of [k] that later failed half-way. *)
Definition damages (k : artifact_key) (o : op) : Prop := match o with OStore k' _ _ (WShort _) => k' = k | _ => False end.
Definition latest_undamaged (k : artifact_key) (l : list op) (m : manifest) (b : list Z) : Prop :=
  exists l1 l2, l = l1 ++ OStore k m b WOk :: l2 /\ forall o, In o l2 -> ~ touches k o /\ ~ damages k o.
(** Every removal succeeded and no write was cut short. *)
Definition calm (o : op) : Prop :=
  match o with OStore _ _ _ (WShort _) => False | OStore _ _ _ _ => True | ODelete _ ok => ok = true | OClear oks => forall p, oks p = true end.

(** [picks load arts k p]: [p] is what the first artifact of [k] that can be loaded gives. *)
Definition picks (load : artifact_key -> stored -> option program) (arts : list (artifact_key * stored)) (k : key) (p : program) : Prop :=
  exists l1 a s l2, arts = l1 ++ (a, s) :: l2 /\ a_run a = k /\ load a s = Some p /\ forall a' s', In (a', s') l1 -> a_run a' = k -> load a' s' = None.
