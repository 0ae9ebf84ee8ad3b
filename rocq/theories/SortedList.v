(** Strictly sorted association lists: the proof-side picture of a node's contents. *)
From Verif Require Import Base MapSpec.
Open Scope Z_scope.

Definition ssorted (ks : list Z) := StronglySorted Z.lt ks.
Definition alt (k : Z) (ks : list Z) := Forall (fun x => x < k) ks.   (* all < k *)
Definition ale (k : Z) (ks : list Z) := Forall (fun x => x <= k) ks.
Definition agt (k : Z) (ks : list Z) := Forall (fun x => k < x) ks.
Definition age (k : Z) (ks : list Z) := Forall (fun x => k <= x) ks.

Lemma ssorted_app a b : ssorted (a ++ b) <->
  ssorted a /\ ssorted b /\ (forall x y, In x a -> In y b -> x < y).
Proof.
  unfold ssorted. induction a as [|x a IH]; simpl.
  - split; [intros H; repeat split; [constructor|exact H|intros ? ? []]|tauto].
  - split.
    + intros H. inversion H as [|? ? H1 H2]; subst. apply IH in H1 as (Ha & Hb & Hab).
      rewrite Forall_app in H2. destruct H2 as [F1 F2]. rewrite Forall_forall in F2.
      repeat split; auto.
      * constructor; auto.
      * intros p q [->|Hp] Hq; auto.
    + intros (Ha & Hb & Hab). inversion Ha as [|? ? H1 H2]; subst. constructor.
      * apply IH. repeat split; auto.
      * rewrite Forall_app. split; auto. rewrite Forall_forall. auto.
Qed.

Lemma ssorted_cons x a : ssorted (x :: a) <-> ssorted a /\ agt x a.
Proof. unfold ssorted, agt. split; [intros H; inversion H; auto|intros []; constructor; auto]. Qed.

Lemma ssorted_nil : ssorted [].
Proof. constructor. Qed.

Lemma ssorted_NoDup ks : ssorted ks -> NoDup ks.
Proof.
  induction ks as [|k ks IH]; intros H; constructor; apply ssorted_cons in H as [H1 H2]; auto.
  intros Hin. unfold agt in H2. rewrite Forall_forall in H2. specialize (H2 _ Hin). lia.
Qed.

Lemma split_lt ks k : ssorted ks -> exists a b, ks = a ++ b /\ alt k a /\ age k b.
Proof.
  induction ks as [|x ks IH]; intros H.
  - exists [], []. repeat split; constructor.
  - apply ssorted_cons in H as [H1 H2]. destruct (Z.ltb_spec x k) as [L|L].
    + destruct (IH H1) as (a & b & -> & Ha & Hb). exists (x :: a), b. repeat split; auto. constructor; auto.
    + exists [], (x :: ks). repeat split; [constructor|]. constructor; auto.
      unfold agt in H2. eapply Forall_impl; [|exact H2]. simpl. lia.
Qed.

Lemma split_le ks k : ssorted ks -> exists a b, ks = a ++ b /\ ale k a /\ agt k b.
Proof.
  intros H. destruct (split_lt (k + 1) H) as (a & b & -> & Ha & Hb).
  exists a, b. unfold ale, agt, alt, age in *. repeat split; auto.
  - eapply Forall_impl; [|exact Ha]; simpl; lia.
  - eapply Forall_impl; [|exact Hb]; simpl; lia.
Qed.

Section Assoc.
Variable V : Type.
Implicit Types es : list (Z * V).

Definition keys es := map fst es.
Definition sorted es := ssorted (keys es).

Fixpoint get (k : Z) es : option V :=
  match es with [] => None | (x, v) :: r => if x =? k then Some v else get k r end.
Fixpoint ins (k : Z) (v : V) es : list (Z * V) :=
  match es with
  | [] => [(k, v)]
  | (x, w) :: r => if x =? k then (k, v) :: r else if k <? x then (k, v) :: es else (x, w) :: ins k v r
  end.
Fixpoint del (k : Z) es : list (Z * V) :=
  match es with [] => [] | (x, w) :: r => if x =? k then r else (x, w) :: del k r end.

Lemma keys_app a b : keys (a ++ b) = keys a ++ keys b.
Proof. apply map_app. Qed.

Lemma get_app_lt k a b : alt k (keys a) -> get k (a ++ b) = get k b.
Proof.
  induction a as [|[x w] a IH]; simpl; intros H; [reflexivity|].
  inversion H; subst. destruct (Z.eqb_spec x k); [simpl in *; lia|]. auto.
Qed.

Lemma get_none_lt k a : alt k (keys a) -> get k a = None.
Proof. intros H. rewrite <- (app_nil_r a). now rewrite get_app_lt. Qed.

Lemma get_none_gt k a : agt k (keys a) -> get k a = None.
Proof.
  induction a as [|[x w] a IH]; simpl; intros H; [reflexivity|].
  inversion H; subst. destruct (Z.eqb_spec x k); [simpl in *; lia|]. auto.
Qed.

Lemma get_app_gt k a b : agt k (keys b) -> get k (a ++ b) = get k a.
Proof.
  intros H. induction a as [|[x w] a IH]; simpl; [now apply get_none_gt|].
  destruct (x =? k); auto.
Qed.

Lemma ins_app_lt k v a b : alt k (keys a) -> ins k v (a ++ b) = a ++ ins k v b.
Proof.
  induction a as [|[x w] a IH]; simpl; intros H; [reflexivity|].
  inversion H; subst; simpl in *. destruct (Z.eqb_spec x k); [lia|].
  destruct (Z.ltb_spec k x); [lia|]. now rewrite IH.
Qed.

Lemma ins_gt k v b : agt k (keys b) -> ins k v b = (k, v) :: b.
Proof.
  destruct b as [|[x w] b]; simpl; intros H; [reflexivity|].
  inversion H; subst; simpl in *. destruct (Z.eqb_spec x k); [lia|].
  destruct (Z.ltb_spec k x); [reflexivity|lia].
Qed.

Lemma ins_app_gt k v a b : agt k (keys b) -> ins k v (a ++ b) = ins k v a ++ b.
Proof.
  intros H. induction a as [|[x w] a IH]; simpl; [now rewrite ins_gt|].
  destruct (x =? k); [reflexivity|]. destruct (k <? x); [reflexivity|]. now rewrite IH.
Qed.

Lemma ins_new k v a b : alt k (keys a) -> agt k (keys b) -> ins k v (a ++ b) = a ++ (k, v) :: b.
Proof. intros Ha Hb. rewrite ins_app_lt by assumption. now rewrite ins_gt. Qed.

Lemma ins_old k v w a b : alt k (keys a) -> ins k v (a ++ (k, w) :: b) = a ++ (k, v) :: b.
Proof. intros Ha. rewrite ins_app_lt by assumption. simpl. now rewrite Z.eqb_refl. Qed.

Lemma del_app_lt k a b : alt k (keys a) -> del k (a ++ b) = a ++ del k b.
Proof.
  induction a as [|[x w] a IH]; simpl; intros H; [reflexivity|].
  inversion H; subst; simpl in *. destruct (Z.eqb_spec x k); [lia|]. now rewrite IH.
Qed.

Lemma del_gt k b : agt k (keys b) -> del k b = b.
Proof.
  induction b as [|[x w] b IH]; simpl; intros H; [reflexivity|].
  inversion H; subst; simpl in *. destruct (Z.eqb_spec x k); [lia|]. now rewrite IH.
Qed.

Lemma del_app_gt k a b : agt k (keys b) -> del k (a ++ b) = del k a ++ b.
Proof.
  intros H. induction a as [|[x w] a IH]; simpl; [now apply del_gt|].
  destruct (x =? k); [reflexivity|]. now rewrite IH.
Qed.

Lemma del_old k w a b : alt k (keys a) -> del k (a ++ (k, w) :: b) = a ++ b.
Proof. intros Ha. rewrite del_app_lt by assumption. simpl. now rewrite Z.eqb_refl. Qed.

Lemma sorted_app a b : sorted (a ++ b) <->
  sorted a /\ sorted b /\ (forall x y, In x (keys a) -> In y (keys b) -> x < y).
Proof. unfold sorted. rewrite keys_app. apply ssorted_app. Qed.

(** The three positions a key can have relative to a sorted list. *)
Lemma locate es k : sorted es ->
  (exists a b, es = a ++ b /\ alt k (keys a) /\ agt k (keys b)) \/
  (exists a w b, es = a ++ (k, w) :: b /\ alt k (keys a) /\ agt k (keys b)).
Proof.
  unfold sorted. induction es as [|[x w] es IH]; intros H.
  - left. exists [], []. repeat split; constructor.
  - simpl in H. apply ssorted_cons in H as [H1 H2]. destruct (Z.lt_trichotomy x k) as [L|[L|L]].
    + destruct (IH H1) as [(a & b & -> & Ha & Hb)|(a & w' & b & -> & Ha & Hb)].
      * left. exists ((x, w) :: a), b. repeat split; auto. constructor; auto.
      * right. exists ((x, w) :: a), w', b. repeat split; auto. constructor; auto.
    + subst x. right. exists [], w, es. repeat split; auto. constructor.
    + left. exists [], ((x, w) :: es). repeat split; [constructor|]. constructor; auto.
      unfold agt in *. eapply Forall_impl; [|exact H2]; simpl; lia.
Qed.

Lemma alt_in k ks : alt k ks <-> forall x, In x ks -> x < k.
Proof. apply Forall_forall. Qed.
Lemma agt_in k ks : agt k ks <-> forall x, In x ks -> k < x.
Proof. apply Forall_forall. Qed.
Lemma age_in k ks : age k ks <-> forall x, In x ks -> k <= x.
Proof. apply Forall_forall. Qed.
Lemma ale_in k ks : ale k ks <-> forall x, In x ks -> x <= k.
Proof. apply Forall_forall. Qed.

Lemma sorted_ins k v es : sorted es -> sorted (ins k v es).
Proof.
  intros H. destruct (locate k H) as [(a & b & -> & Ha & Hb)|(a & w & b & -> & Ha & Hb)].
  - rewrite ins_new by assumption. apply sorted_app in H as (S1 & S2 & S3). apply sorted_app.
    rewrite alt_in in Ha. rewrite agt_in in Hb.
    repeat split; auto.
    + unfold sorted. simpl. apply ssorted_cons. split; [assumption|]. now apply agt_in.
    + simpl. intros x y Hx [->|Hy]; auto.
  - rewrite ins_old by assumption. unfold sorted in *. rewrite keys_app in *. exact H.
Qed.

Lemma sorted_del k es : sorted es -> sorted (del k es).
Proof.
  intros H. destruct (locate k H) as [(a & b & -> & Ha & Hb)|(a & w & b & -> & Ha & Hb)].
  - rewrite del_app_lt, del_gt by assumption. exact H.
  - rewrite del_old by assumption. apply sorted_app in H as (S1 & S2 & S3).
    unfold sorted in S2. simpl in S2. apply ssorted_cons in S2 as [S2 _].
    apply sorted_app. repeat split; auto. intros x y Hx Hy. apply S3; simpl; auto.
Qed.

Lemma get_old k w a b : alt k (keys a) -> get k (a ++ (k, w) :: b) = Some w.
Proof. intros H. rewrite get_app_lt by assumption. simpl. now rewrite Z.eqb_refl. Qed.

Lemma get_new k a b : alt k (keys a) -> agt k (keys b) -> get k (a ++ b) = None.
Proof. intros H1 H2. rewrite get_app_lt by assumption. now apply get_none_gt. Qed.

Lemma get_in es k v : sorted es -> (In (k, v) es <-> get k es = Some v).
Proof.
  unfold sorted. induction es as [|[x w] es IH]; simpl; intros H.
  - split; [intros []|discriminate].
  - apply ssorted_cons in H as [H1 H2]. rewrite agt_in in H2. destruct (Z.eqb_spec x k) as [->|N].
    + split.
      * intros [E|E]; [congruence|]. apply (in_map fst) in E. apply H2 in E. simpl in E; lia.
      * intros [= ->]. auto.
    + rewrite <- IH by assumption. split; [intros [E|E]; [congruence|auto]|auto].
Qed.

Lemma get_ins k v es x : sorted es -> get x (ins k v es) = if x =? k then Some v else get x es.
Proof.
  intros H. induction es as [|[y w] es IH]; simpl.
  - rewrite Z.eqb_sym. reflexivity.
  - unfold sorted in H. simpl in H. apply ssorted_cons in H as [H1 H2].
    destruct (Z.eqb_spec y k) as [->|N].
    + simpl. rewrite (Z.eqb_sym x k). destruct (Z.eqb_spec k x); reflexivity.
    + destruct (Z.ltb_spec k y) as [L|L]; simpl.
      * rewrite (Z.eqb_sym x k). destruct (Z.eqb_spec k x); reflexivity.
      * rewrite IH by exact H1. destruct (Z.eqb_spec y x) as [->|N2]; auto.
        destruct (Z.eqb_spec x k); [lia|reflexivity].
Qed.

Lemma get_del k es x : sorted es -> get x (del k es) = if x =? k then None else get x es.
Proof.
  intros H. induction es as [|[y w] es IH]; simpl.
  - now destruct (x =? k).
  - unfold sorted in H. simpl in H. apply ssorted_cons in H as [H1 H2].
    destruct (Z.eqb_spec y k) as [->|N].
    + destruct (Z.eqb_spec x k) as [->|N2]; [now apply get_none_gt|].
      destruct (Z.eqb_spec k x); [lia|reflexivity].
    + simpl. rewrite IH by exact H1. destruct (Z.eqb_spec y x) as [->|N2]; auto.
      destruct (Z.eqb_spec x k); [lia|reflexivity].
Qed.

Lemma ins_in_keys k v es x : In x (keys (ins k v es)) <-> x = k \/ In x (keys es).
Proof.
  induction es as [|[y w] es IH]; simpl; [intuition congruence|].
  destruct (Z.eqb_spec y k) as [->|N]; simpl; [intuition congruence|].
  destruct (k <? y); simpl; [intuition congruence|]. rewrite IH. intuition congruence.
Qed.

Lemma del_in_keys k es x : In x (keys (del k es)) -> In x (keys es).
Proof.
  induction es as [|[y w] es IH]; simpl; [tauto|].
  destruct (Z.eqb_spec y k) as [->|N]; simpl; [tauto|]. intuition.
Qed.

Lemma length_ins_new k v es : sorted es -> get k es = None -> length (ins k v es) = S (length es).
Proof.
  intros H G. destruct (locate k H) as [(a & b & -> & Ha & Hb)|(a & w & b & -> & Ha & Hb)].
  - rewrite ins_new by assumption. rewrite !app_length; simpl; lia.
  - rewrite get_old in G by assumption. discriminate.
Qed.

Lemma length_ins_old k v es : sorted es -> get k es <> None -> length (ins k v es) = length es.
Proof.
  intros H G. destruct (locate k H) as [(a & b & -> & Ha & Hb)|(a & w & b & -> & Ha & Hb)].
  - rewrite get_new in G by assumption. congruence.
  - rewrite ins_old by assumption. rewrite !app_length; simpl; lia.
Qed.

Lemma length_del k es : sorted es -> get k es <> None -> S (length (del k es)) = length es.
Proof.
  intros H G. destruct (locate k H) as [(a & b & -> & Ha & Hb)|(a & w & b & -> & Ha & Hb)].
  - rewrite get_new in G by assumption. congruence.
  - rewrite del_old by assumption. rewrite !app_length; simpl; lia.
Qed.

Lemma keys_length es : length (keys es) = length es.
Proof. apply map_length. Qed.

(** A sorted list lists the map it denotes. *)
Lemma sorted_lists es : sorted es -> lists (fun k => get k es) es.
Proof. intros H. split; [exact H|]. intros k v. now apply get_in. Qed.

Lemma ssorted_filter (f : Z -> bool) ks : ssorted ks -> ssorted (filter f ks).
Proof.
  induction ks as [|k ks IH]; simpl; intros H; [constructor|].
  apply ssorted_cons in H as [H1 H2]. destruct (f k); auto. apply ssorted_cons. split; auto.
  rewrite agt_in in *. intros x Hx. apply filter_In in Hx as [Hx _]. auto.
Qed.

Definition in_range (lo hi : Z) (e : Z * V) : bool := (lo <=? fst e) && (fst e <=? hi).

Lemma sorted_lists_range es lo hi : sorted es ->
  lists_range (fun k => get k es) lo hi (filter (in_range lo hi) es).
Proof.
  intros H. split.
  - unfold sorted, keys in H.
    replace (map fst (filter (in_range lo hi) es))
       with (filter (fun k => (lo <=? k) && (k <=? hi)) (map fst es)).
    + now apply ssorted_filter.
    + clear H. induction es as [|[x w] es IH]; simpl; [reflexivity|].
      change (in_range lo hi (x, w)) with ((lo <=? x) && (x <=? hi)).
      destruct ((lo <=? x) && (x <=? hi)); simpl; now rewrite IH.
  - intros k v. rewrite filter_In, get_in by assumption. unfold in_range. simpl.
    rewrite andb_true_iff, !Z.leb_le. tauto.
Qed.

End Assoc.
