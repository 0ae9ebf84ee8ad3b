(** Regions of bytes in a block: what a write leaves, what a read returns. *)
From Coq Require Import FMapPositive.
From Verif Require Import Base SerModel SerProofs BlockModel.
Open Scope Z_scope.

Lemma in_block_spec p : in_block p = true <-> 0 <= p < block_size.
Proof. unfold in_block. rewrite andb_true_iff, Z.leb_le, Z.ltb_lt. reflexivity. Qed.

(** The bytes [l] stand at [p]. *)
Fixpoint reg (b : block) (p : Z) (l : list Z) : Prop :=
  match l with [] => True | x :: r => 0 <= p < block_size /\ byte_at b p = x /\ reg b (p + 1) r end.

(** [b'] agrees with [b] outside of [s, e). *)
Definition same_out (b b' : block) (s e : Z) : Prop := forall q, 0 <= q -> q < s \/ e <= q -> byte_at b' q = byte_at b q.

Lemma same_out_refl b s e : same_out b b s e.
Proof. intros q _ _. reflexivity. Qed.
Lemma same_out_trans b1 b2 b3 s e : same_out b1 b2 s e -> same_out b2 b3 s e -> same_out b1 b3 s e.
Proof. intros H1 H2 q H0 H. rewrite H2, H1; auto. Qed.
Lemma same_out_wider b b' s e s' e' : same_out b b' s e -> s' <= s -> e <= e' -> same_out b b' s' e'.
Proof. intros H H1 H2 q H0 H3. apply H; lia. Qed.

Lemma byte_wr b p v b' q : wr b p v = Ok b' -> 0 <= q -> byte_at b' q = if q =? p then v else byte_at b q.
Proof.
  unfold wr. destruct (in_block p) eqn:I; [|discriminate]. intros [= <-] Hq. apply in_block_spec in I.
  unfold byte_at. destruct (Z.eqb_spec q p) as [->|N].
  - now rewrite PositiveMap.gss.
  - rewrite PositiveMap.gso; [reflexivity|]. intros E. apply N.
    assert (Zpos (Z.to_pos (q + 1)) = Zpos (Z.to_pos (p + 1))) as E2 by congruence.
    rewrite !Z2Pos.id in E2 by lia. lia.
Qed.

Lemma wr_ok b p v : 0 <= p < block_size -> exists b', wr b p v = Ok b'.
Proof. intros H. unfold wr. apply in_block_spec in H. rewrite H. eauto. Qed.

Lemma reg_same b b' p l : (forall q, p <= q < p + Z.of_nat (length l) -> byte_at b' q = byte_at b q) -> reg b p l -> reg b' p l.
Proof.
  revert p; induction l as [|x r IH]; intros p H; [auto|]. intros (H1 & H2 & H3). cbn [reg]. splits; [lia|lia| |].
  - rewrite H; [auto|cbn [length]; lia].
  - apply IH; [|exact H3]. intros q Hq. apply H. cbn [length]. lia.
Qed.

Lemma reg_frame b b' s e p l : same_out b b' s e -> 0 <= p -> p + Z.of_nat (length l) <= s \/ e <= p ->
  reg b p l -> reg b' p l.
Proof. intros H H0 D. apply reg_same. intros q Hq. apply H; lia. Qed.

Lemma wrs_ok l : forall b p, 0 <= p -> p + Z.of_nat (length l) <= block_size ->
  exists b', wrs b p l = Ok b' /\ same_out b b' p (p + Z.of_nat (length l)) /\ reg b' p l.
Proof.
  induction l as [|x r IH]; intros b p H0 H; cbn [wrs].
  - exists b. splits; [reflexivity|apply same_out_refl|exact I].
  - cbn [length] in *. destruct (@wr_ok b p x) as [b1 E1]; [lia|]. rewrite E1. cbn [bind].
    destruct (IH b1 (p + 1)) as (b2 & E2 & S2 & R2); [lia|lia|]. rewrite E2. exists b2. splits; [reflexivity| |].
    + intros q Hq Ho. rewrite S2 by lia. rewrite (byte_wr E1 Hq). destruct (Z.eqb_spec q p); [lia|reflexivity].
    + cbn [reg]. splits; [lia|lia| |exact R2]. rewrite S2 by lia. rewrite (byte_wr E1) by lia. now rewrite Z.eqb_refl.
Qed.

Lemma rds_reg l : forall b p, reg b p l -> rds b p (length l) = Ok l.
Proof.
  induction l as [|x r IH]; intros b p H; cbn [rds length]; [reflexivity|].
  destruct H as (H1 & H2 & H3). unfold rd. apply in_block_spec in H1. rewrite H1. cbn [bind].
  rewrite IH by exact H3. cbn [bind]. now rewrite H2.
Qed.

Lemma get_reg w s b p z : reg b p (image w z) -> int_ok w s z -> get w s b p = Ok z.
Proof.
  intros R H. unfold get. assert (E := rds_reg R). rewrite image_length in E. rewrite E. cbn [bind].
  now rewrite value_image.
Qed.

Lemma put_ok w b p z : 0 <= p -> p + Z.of_nat w <= block_size ->
  exists b', put w b p z = Ok b' /\ same_out b b' p (p + Z.of_nat w) /\ reg b' p (image w z).
Proof.
  intros H0 H. unfold put. destruct (@wrs_ok (image w z) b p H0) as (b' & E & S & R); [now rewrite image_length|].
  rewrite image_length in S. eauto.
Qed.

Lemma u16_reg b p z : reg b p (image 2 z) -> 0 <= z < 65536 -> u16 b p = Ok z.
Proof. intros R H. apply get_reg; [exact R|]. exact H. Qed.
Lemma u32_reg b p z : reg b p (image 4 z) -> 0 <= z < 4294967296 -> u32 b p = Ok z.
Proof. intros R H. apply get_reg; [exact R|]. exact H. Qed.

Lemma reg_range b p l : reg b p l -> l <> [] -> 0 <= p /\ p + Z.of_nat (length l) <= block_size.
Proof.
  revert p; induction l as [|x r IH]; intros p H N; [congruence|]. destruct H as (H1 & _ & H3).
  destruct r as [|y r]; [cbn [length]; lia|]. destruct (IH (p + 1) H3) as (_ & U); [discriminate|].
  cbn [length] in *. lia.
Qed.

Lemma reg_app b p l m : reg b p (l ++ m) <-> reg b p l /\ reg b (p + Z.of_nat (length l)) m.
Proof.
  revert p; induction l as [|x r IH]; intros p; cbn [app reg length].
  - rewrite Z.add_0_r. tauto.
  - rewrite IH. replace (p + Z.of_nat (S (length r))) with (p + 1 + Z.of_nat (length r)) by lia. tauto.
Qed.

(** Reading a string. *)
Lemma cstr_reg s : forall b p fuel, reg b p (s ++ [0]) -> ~ In 0 s -> (length s < fuel)%nat -> cstr fuel b p = Ok s.
Proof.
  induction s as [|c r IH]; intros b p [|f] R N L; cbn [length] in L; try lia; cbn [cstr app] in *.
  - destruct R as (H1 & H2 & _). unfold rd. apply in_block_spec in H1. rewrite H1. cbn [bind]. now rewrite H2.
  - destruct R as (H1 & H2 & H3). unfold rd. apply in_block_spec in H1. rewrite H1. cbn [bind]. rewrite H2.
    destruct (Z.eqb_spec c 0) as [->|Nc]; [exfalso; apply N; now left|].
    rewrite IH; [reflexivity|exact H3| |lia]. intros Hi. apply N. now right.
Qed.

Lemma string_reg s b p : reg b p (s ++ [0]) -> ~ In 0 s -> string_at b p = Ok s.
Proof.
  intros R N. apply cstr_reg; [exact R|exact N|].
  destruct (reg_range R) as (H1 & H2); [destruct s; discriminate|].
  rewrite app_length in H2. cbn [length] in H2. lia.
Qed.

Lemma reg_image_mod b p w z z' : z mod 2 ^ (8 * Z.of_nat w) = z' mod 2 ^ (8 * Z.of_nat w) ->
  reg b p (image w z) -> reg b p (image w z').
Proof. unfold image. now intros ->. Qed.
