(** One column of a block: representation and insertion. *)
From Verif Require Import Base SerModel SerProofs BlockModel BlockSpec BlockBytes.
Open Scope Z_scope.

Section Col.
Variables (dlt : Z -> Z -> bool) (dv : Z -> Prop).
Hypothesis Hd : dbl_order dv dlt.
Notation attr_ok := (attr_ok dv).
Notation lt := (lt_attr dlt).

(** ** The order on attributes *)
Lemma str_lt_irr s : str_lt s s = false.
Proof. induction s as [|a s IH]; cbn; [reflexivity|]. destruct (Z.ltb_spec a a); [lia|exact IH]. Qed.
Lemma str_lt_trans : forall x y z, str_lt x y = true -> str_lt y z = true -> str_lt x z = true.
Proof.
  induction x as [|a x IH]; intros [|b y] [|c z] H1 H2; cbn in *; try discriminate; auto.
  destruct (Z.ltb_spec a b), (Z.ltb_spec b a), (Z.ltb_spec b c), (Z.ltb_spec c b), (Z.ltb_spec a c), (Z.ltb_spec c a);
    try lia; try discriminate; auto. eapply IH; eauto.
Qed.
Lemma str_lt_co : forall x y z, str_lt x y = true -> str_lt x z = true \/ str_lt z y = true.
Proof.
  induction x as [|a x IH]; intros [|b y] [|c z] H; cbn in *; try discriminate; auto.
  destruct (Z.ltb_spec a b), (Z.ltb_spec b a), (Z.ltb_spec b c), (Z.ltb_spec c b), (Z.ltb_spec a c), (Z.ltb_spec c a);
    try lia; try discriminate; auto.
Qed.

Lemma lt_irr c x : attr_ok c x -> ~ lt x x.
Proof.
  destruct Hd as (H1 & _). destruct c, x; cbn; try tauto; [lia| |].
  - intros (_ & Hv) E. rewrite H1 in E by exact Hv. discriminate.
  - intros _ E. rewrite str_lt_irr in E. discriminate.
Qed.
Lemma lt_trans c x y z : attr_ok c x -> attr_ok c y -> attr_ok c z -> lt x y -> lt y z -> lt x z.
Proof.
  destruct Hd as (_ & H2 & _). destruct c, x, y, z; cbn; try tauto; [lia| |].
  - intros (_ & A) (_ & B) (_ & C). apply H2; auto.
  - intros _ _ _. apply str_lt_trans.
Qed.
Lemma lt_co c x y z : attr_ok c x -> attr_ok c y -> attr_ok c z -> lt x y -> lt x z \/ lt z y.
Proof.
  destruct Hd as (_ & _ & H3). destruct c, x, y, z; cbn; try tauto; [lia| |].
  - intros (_ & A) (_ & B) (_ & C). apply H3; auto.
  - intros _ _ _. apply str_lt_co.
Qed.

(** [mn] and [mx] are values of the column that bound all its values. *)
Definition bounds (mn mx : attr) (vals : list attr) : Prop :=
  In mn vals /\ In mx vals /\ forall v, In v vals -> ~ lt v mn /\ ~ lt mx v.

Lemma bounds_one c v : attr_ok c v -> bounds v v [v].
Proof. intros H. split; [now left|]. split; [now left|]. intros u [<-|[]]. split; apply (@lt_irr c); exact H. Qed.

Lemma bounds_min c mn mx vals v : Forall (attr_ok c) vals -> attr_ok c v -> bounds mn mx vals -> lt v mn ->
  bounds v mx (vals ++ [v]).
Proof.
  intros Hv Ha (I1 & I2 & H) L. rewrite Forall_forall in Hv. unfold bounds. splits.
  - apply in_or_app. right. now left.
  - apply in_or_app. now left.
  - intros u Hu. apply in_app_or in Hu. destruct Hu as [Hu|[<-|[]]].
    + split; [|apply H; exact Hu]. intros C. apply (proj1 (H u Hu)). apply (@lt_trans c) with v; auto.
    + split; [apply (@lt_irr c); exact Ha|]. intros C.
      apply (proj2 (H mn I1)). apply (@lt_trans c) with v; auto.
Qed.
Lemma bounds_max c mn mx vals v : Forall (attr_ok c) vals -> attr_ok c v -> bounds mn mx vals -> lt mx v ->
  bounds mn v (vals ++ [v]).
Proof.
  intros Hv Ha (I1 & I2 & H) L. rewrite Forall_forall in Hv. unfold bounds. splits.
  - apply in_or_app. now left.
  - apply in_or_app. right. now left.
  - intros u Hu. apply in_app_or in Hu. destruct Hu as [Hu|[<-|[]]].
    + split; [apply H; exact Hu|]. intros C. apply (proj2 (H u Hu)). apply (@lt_trans c) with v; auto.
    + split; [|apply (@lt_irr c); exact Ha]. intros C.
      apply (proj1 (H mx I2)). apply (@lt_trans c) with v; auto.
Qed.
Lemma bounds_keep mn mx vals v : bounds mn mx vals -> ~ lt v mn -> ~ lt mx v -> bounds mn mx (vals ++ [v]).
Proof.
  intros (I1 & I2 & H) L1 L2. unfold bounds. splits; [apply in_or_app; now left|apply in_or_app; now left|].
  intros u Hu. apply in_app_or in Hu. destruct Hu as [Hu|[<-|[]]]; [now apply H|auto].
Qed.
Lemma bounds_no_both c mn mx vals v : Forall (attr_ok c) vals -> attr_ok c v -> bounds mn mx vals -> lt v mn -> ~ lt mx v.
Proof.
  intros Hv Ha (I1 & I2 & H) L C. rewrite Forall_forall in Hv.
  apply (proj2 (H mn I1)). apply (@lt_trans c) with v; auto.
Qed.

(** ** Representation *)
Definition raw (a : attr) : Z := match a with AInt z => z | ADbl z => z | AStr _ => 0 end.
Definition str_of (a : attr) : list Z := match a with AStr s => s | _ => [] end.
Definition slen (a : attr) : Z := Z.of_nat (length (str_of a)) + 1.
Definition wz (c : col) : Z := Z.of_nat (fixed_width c).

(** The offset kept for value [j] of the column with minipage [s, e). *)
Definition soff (e : Z) (vals : list attr) (j : nat) : Z := e - zsum (map slen (firstn (S j) vals)).
Definition offset (c : col) (s e : Z) (vals : list attr) (j : nat) : Z :=
  match c with CStr => soff e vals j | _ => s + sma_size c + Z.of_nat j * wz c end.

Definition item (c : col) (s e : Z) (vals : list attr) (b : block) (j : nat) (v : attr) : Prop :=
  match c with
  | CStr => reg b (s + 4 + Z.of_nat j * 2) (image 2 (soff e vals j)) /\ reg b (soff e vals j) (str_of v ++ [0])
  | _ => reg b (s + sma_size c + Z.of_nat j * wz c) (image (fixed_width c) (raw v))
  end.

(** Where the summary value [v] of the column stands: at [p]. *)
Definition sma_at (c : col) (e : Z) (vals : list attr) (b : block) (p : Z) (v : attr) : Prop :=
  match c with
  | CStr => exists j, nth_error vals j = Some v /\ reg b p (image 2 (soff e vals j))
  | _ => reg b p (image (fixed_width c) (raw v))
  end.

Definition colrep (c : col) (s e : Z) (vals : list attr) (b : block) : Prop :=
  (forall j v, nth_error vals j = Some v -> item c s e vals b j v) /\
  (vals <> [] -> exists mn mx, bounds mn mx vals /\ sma_at c e vals b s mn /\ sma_at c e vals b (s + wz c) mx).

Lemma zsum_app l m : zsum (l ++ m) = zsum l + zsum m.
Proof. unfold zsum. induction l as [|x l IH]; cbn [app fold_right]; lia. Qed.

Lemma used_app vals a : used (vals ++ [a]) = used vals + attr_bytes a.
Proof. unfold used. rewrite map_app, zsum_app. cbn. lia. Qed.

Lemma slen_pos a : 1 <= slen a.
Proof. unfold slen. lia. Qed.
Lemma slens_nonneg l : 0 <= zsum (map slen l).
Proof. induction l as [|a l IH]; [cbn; lia|]. unfold zsum in *. cbn [map fold_right]. pose proof (@slen_pos a). lia. Qed.

Lemma used_str vals : Forall (attr_ok CStr) vals -> used vals = zsum (map slen vals) + 2 * Z.of_nat (length vals).
Proof.
  induction 1 as [|a l H _ IH]; [reflexivity|]. unfold used, zsum in *. cbn [map fold_right length].
  destruct a; cbn in H; try tauto. unfold slen at 1. cbn [attr_bytes str_of]. lia.
Qed.
Lemma used_fixed c vals : c <> CStr -> Forall (attr_ok c) vals -> used vals = wz c * Z.of_nat (length vals).
Proof.
  intros Hc. induction 1 as [|a l H _ IH]; [cbn; lia|]. unfold used, zsum in *. cbn [map fold_right length].
  destruct c, a; cbn in H; try tauto; try congruence; unfold wz in *; cbn [fixed_width attr_bytes] in *; lia.
Qed.

Lemma soff_app e vals a j : (j < length vals)%nat -> soff e (vals ++ [a]) j = soff e vals j.
Proof.
  intros H. unfold soff. rewrite firstn_app. replace (S j - length vals)%nat with 0%nat by lia.
  cbn [firstn]. now rewrite app_nil_r.
Qed.
Lemma soff_last e vals a : soff e (vals ++ [a]) (length vals) = e - zsum (map slen vals) - slen a.
Proof.
  unfold soff. rewrite firstn_all2 by (rewrite app_length; cbn [length]; lia).
  rewrite map_app, zsum_app. cbn. lia.
Qed.

Lemma zsum_firstn_le l n : zsum (map slen (firstn n l)) <= zsum (map slen l).
Proof.
  rewrite <- (firstn_skipn n l) at 2. rewrite map_app, zsum_app. pose proof (@slens_nonneg (skipn n l)). lia.
Qed.

(** Value [j] of a string column starts at its offset and ends where value [j-1] starts. *)
Lemma soff_step e vals j v : nth_error vals j = Some v ->
  soff e vals j + slen v = e - zsum (map slen (firstn j vals)).
Proof.
  intros E. unfold soff.
  assert (F : firstn (S j) vals = firstn j vals ++ [v]).
  { clear - E. revert j E. induction vals as [|a l IH]; intros [|j] E; cbn in *; try discriminate.
    - now injection E as <-.
    - f_equal. now apply IH. }
  rewrite F, map_app, zsum_app. cbn. lia.
Qed.

Lemma str_ok_nonul a : attr_ok CStr a -> ~ In 0 (str_of a).
Proof.
  destruct a; cbn; try tauto. intros H I. rewrite Forall_forall in H. specialize (H 0 I). lia.
Qed.

Lemma fixed_int_ok c a : c <> CStr -> attr_ok c a -> int_ok (fixed_width c) (fixed_signed c) (raw a).
Proof. destruct c, a; cbn; try tauto; congruence. Qed.

Lemma fixed_attr c a a' : c <> CStr -> attr_ok c a -> attr_ok c a' -> fixed_lt dlt c (raw a) (raw a') = true <-> lt a a'.
Proof.
  destruct c, a, a'; cbn; try tauto; try congruence. intros _ _ _. apply Z.ltb_lt.
Qed.

Lemma get_ok w s b p : 0 <= p -> p + Z.of_nat w <= block_size -> exists z, get w s b p = Ok z.
Proof.
  intros H0 H. unfold get. assert (X : exists l, rds b p w = Ok l).
  { revert p H0 H. induction w as [|w IH]; intros p H0 H; cbn [rds]; [eauto|].
    unfold rd. assert (I : in_block p = true) by (apply in_block_spec; lia). rewrite I. cbn [bind].
    destruct (IH (p + 1)) as [l ->]; [lia|lia|]. cbn [bind]. eauto. }
  destruct X as [l ->]. cbn [bind]. eauto.
Qed.

(** Bytes outside of the column's minipage do not matter. *)
Lemma colrep_same c s e vals b b' :
  0 <= s -> Forall (attr_ok c) vals -> s + sma_size c + used vals <= e -> e <= block_size ->
  (forall q, s <= q < e -> byte_at b' q = byte_at b q) -> colrep c s e vals b -> colrep c s e vals b'.
Proof.
  intros H0 Hv Hu He Hs (HI & HB).
  assert (R : forall p l, s <= p -> p + Z.of_nat (length l) <= e -> reg b p l -> reg b' p l).
  { intros p l H1 H2. apply reg_same. intros q Hq. apply Hs. lia. }
  assert (SO : c = CStr -> forall j v, nth_error vals j = Some v ->
      s + 4 + 2 * Z.of_nat (length vals) <= soff e vals j /\ soff e vals j + slen v <= e).
  { intros -> j v E. rewrite (soff_step e E). pose proof (@slens_nonneg (firstn j vals)).
    rewrite (used_str Hv) in Hu. unfold soff. pose proof (@zsum_firstn_le vals (S j)). cbn [sma_size] in Hu. lia. }
  split.
  - intros j v E. specialize (HI j v E).
    assert (J : (j < length vals)%nat) by (apply nth_error_Some; congruence).
    destruct c; cbn [item] in *.
    + rewrite (@used_fixed CInt vals) in Hu by (auto; discriminate). revert HI.
      apply R; [|rewrite image_length]; unfold wz in *; cbn [fixed_width sma_size] in *; lia.
    + rewrite (@used_fixed CDbl vals) in Hu by (auto; discriminate). revert HI.
      apply R; [|rewrite image_length]; unfold wz in *; cbn [fixed_width sma_size] in *; lia.
    + destruct (SO eq_refl j v E) as (S1 & S2). destruct HI as (A & B). split.
      * revert A. apply R; [|rewrite image_length]; unfold slen in *; lia.
      * revert B. unfold slen in S2. apply R; [lia|]. rewrite app_length. cbn [length]. lia.
  - intros N. destruct (HB N) as (mn & mx & B & S1 & S2). exists mn, mx. split; [exact B|].
    assert (L : 0 <= used vals).
    { destruct c; [rewrite (@used_fixed CInt) by (auto; discriminate)|rewrite (@used_fixed CDbl) by (auto; discriminate)|rewrite used_str by auto];
        unfold wz; try lia. pose proof (@slens_nonneg vals). lia. }
    destruct c; unfold sma_at, wz in *; cbn [fixed_width sma_size] in *.
    + split; [revert S1|revert S2]; (apply R; [|rewrite image_length]; lia).
    + split; [revert S1|revert S2]; (apply R; [|rewrite image_length]; lia).
    + destruct S1 as (j & E1 & S1), S2 as (k & E2 & S2). split; [exists j|exists k]; (split; [assumption|]).
      * revert S1. apply R; [|rewrite image_length]; lia.
      * revert S2. apply R; [|rewrite image_length]; lia.
Qed.
End Col.
