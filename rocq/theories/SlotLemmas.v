(** Lists of optional slots and the entries they hold. *)
From Coq Require Import Permutation.
From Verif Require Import Base.
Open Scope nat_scope.

Lemma nth_error_Some_lt {A} (l : list A) i x : nth_error l i = Some x -> i < length l.
Proof. intros H. apply nth_error_Some. congruence. Qed.

Lemma skipn_at {A} (l : list A) i x : nth_error l i = Some x -> skipn i l = x :: skipn (S i) l.
Proof.
  revert i; induction l as [|y l IH]; intros [|i] H; try discriminate.
  - injection H as ->. reflexivity.
  - cbn [skipn]. now apply IH.
Qed.

Section Slots.
Variable A : Type.
Implicit Types (sl : list (option A)) (x : A).

Fixpoint somes (sl : list (option A)) : list A :=
  match sl with [] => [] | None :: r => somes r | Some x :: r => x :: somes r end.

Lemma somes_app a b : somes (a ++ b) = somes a ++ somes b.
Proof. induction a as [|[x|] a IH]; simpl; congruence. Qed.
Lemma somes_map l : somes (map Some l) = l.
Proof. induction l; simpl; congruence. Qed.
Lemma somes_none n : somes (repeat None n) = [].
Proof. induction n; simpl; auto. Qed.
Lemma somes_length sl : length (somes sl) <= length sl.
Proof. induction sl as [|[x|] sl IH]; simpl; lia. Qed.
Lemma in_somes sl x : In x (somes sl) <-> exists i, nth_error sl i = Some (Some x).
Proof.
  split.
  - induction sl as [|[y|] sl IH]; simpl; [tauto| |].
    + intros [->|H]; [now exists 0|]. destruct (IH H) as (i & E). now exists (S i).
    + intros H. destruct (IH H) as (i & E). now exists (S i).
  - intros (i & E). apply nth_error_split in E as (p & q & -> & _). rewrite somes_app, in_app_iff. simpl. auto.
Qed.
Lemma somes_set sl p o sl' x : nth_error sl p = Some None -> o = Some x -> lset sl p o = Some sl' ->
  Permutation (somes sl') (x :: somes sl).
Proof.
  intros E -> H. apply nth_error_split in E as (a & b & -> & <-). rewrite lset_app in H. injection H as <-.
  rewrite !somes_app. simpl. symmetry. apply Permutation_middle.
Qed.
Lemma somes_unset sl p sl' x : nth_error sl p = Some (Some x) -> lset sl p None = Some sl' ->
  exists a b, somes sl = a ++ x :: b /\ somes sl' = a ++ b.
Proof.
  intros E H. apply nth_error_split in E as (a & b & -> & <-). rewrite lset_app in H. injection H as <-.
  exists (somes a), (somes b). rewrite !somes_app. auto.
Qed.
Lemma somes_replace sl p sl' x y : nth_error sl p = Some (Some x) -> lset sl p (Some y) = Some sl' ->
  exists a b, somes sl = a ++ x :: b /\ somes sl' = a ++ y :: b.
Proof.
  intros E H. apply nth_error_split in E as (a & b & -> & <-). rewrite lset_app in H. injection H as <-.
  exists (somes a), (somes b). rewrite !somes_app. auto.
Qed.
Lemma somes_full sl : length (somes sl) = length sl -> sl = map Some (somes sl).
Proof.
  induction sl as [|[x|] sl IH]; simpl; intros H; auto.
  - f_equal. apply IH. lia.
  - pose proof (somes_length sl). lia.
Qed.
Lemma somes_free sl : (forall i, i < length sl -> nth_error sl i <> Some None) -> length (somes sl) = length sl.
Proof.
  induction sl as [|[x|] sl IH]; simpl; intros H; auto.
  - f_equal. apply IH. intros i Hi. apply (H (S i)). lia.
  - exfalso. apply (H 0); auto. lia.
Qed.
End Slots.
