(** Array loops used by the node operations, on arrays with an initialised prefix. *)
From Verif Require Import Base.
Open Scope nat_scope.

(** [a] starts with the (initialised) elements [xs]. *)
Definition pre {A} (a : arr A) (xs : list A) := exists R, a = map Some xs ++ R.

Lemma pre_length {A} (a : arr A) xs : pre a xs -> length xs <= length a.
Proof. intros [R ->]. rewrite app_length, map_length. lia. Qed.

Lemma pre_app_l {A} (a : arr A) xs ys : pre a (xs ++ ys) -> pre a xs.
Proof. intros [R ->]. exists (map Some ys ++ R). now rewrite map_app, app_assoc. Qed.

Lemma pre_get {A} (a : arr A) xs y ys i : pre a (xs ++ y :: ys) -> i = length xs -> aget a i = Ok y.
Proof.
  intros [R ->] ->. rewrite map_app, <- app_assoc. simpl. apply aget_app. now rewrite map_length.
Qed.

Lemma pre_get_nth {A} (a : arr A) xs i x : pre a xs -> nth_error xs i = Some x -> aget a i = Ok x.
Proof.
  intros H E. apply nth_error_split in E as (l1 & l2 & -> & <-). eapply pre_get; [exact H|reflexivity].
Qed.

Lemma pre_set {A} (a : arr A) xs y ys i x :
  pre a (xs ++ y :: ys) -> i = length xs ->
  exists a', aset a i x = Ok a' /\ pre a' (xs ++ x :: ys) /\ length a' = length a.
Proof.
  intros [R ->] ->. exists (map Some (xs ++ x :: ys) ++ R). rewrite !map_app, <- !app_assoc. simpl.
  rewrite aset_app by now rewrite map_length. repeat split.
  - exists R. now rewrite map_app, <- app_assoc.
  - rewrite !app_length. simpl. lia.
Qed.

(** Writing the first cell after the initialised prefix. *)
Lemma pre_set_end {A} (a : arr A) xs i x :
  pre a xs -> i = length xs -> length xs < length a ->
  exists a', aset a i x = Ok a' /\ pre a' (xs ++ [x]) /\ length a' = length a.
Proof.
  intros [R ->] -> HL. rewrite app_length, map_length in HL. destruct R as [|r R]; [simpl in HL; lia|].
  exists (map Some xs ++ Some x :: R). rewrite aset_app by now rewrite map_length. repeat split.
  - exists R. now rewrite map_app, <- app_assoc.
  - rewrite !app_length. simpl. lia.
Qed.

(** [for (i = n; i > pos; --i) a[i] = a[i-1]; a[pos] = x] *)
Lemma arr_insert {A} (a : arr A) xs ys x n pos :
  pre a (xs ++ ys) -> pos = length xs -> n = length (xs ++ ys) -> n < length a ->
  exists a1 a2,
    for_down n (n - pos) (fun i s => do x <- aget s (i - 1); aset s i x) a = Ok a1 /\
    aset a1 pos x = Ok a2 /\ pre a2 (xs ++ x :: ys) /\ length a2 = length a.
Proof.
  intros [R ->] -> -> HL. rewrite !app_length, map_length in *.
  rewrite app_length in HL.
  destruct R as [|r R]; [simpl in HL; lia|].
  replace (length xs + length ys - length xs) with (length ys) by lia.
  rewrite map_app, <- app_assoc. change (r :: R) with ([r] ++ R).
  rewrite (@for_down_move_right A (fun i => i) (fun i => i - 1) (length ys)); try lia.
  - cbn [length]. destruct (firstn 1 (map Some ys ++ [r])) as [|y l] eqn:E.
    { destruct ys; discriminate. }
    assert (l = []) as ->. { destruct ys; simpl in E; congruence. }
    eexists _, (map Some xs ++ Some x :: map Some ys ++ R). split; [reflexivity|].
    split; [|split].
    + cbn [app]. apply aset_app. now rewrite map_length.
    + exists R. rewrite map_app, <- app_assoc. reflexivity.
    + repeat (rewrite ?app_length, ?map_length; simpl). lia.
  - discriminate.
  - intros j Hj. rewrite map_length. lia.
  - intros j Hj. rewrite map_length. simpl. lia.
Qed.

(** [for (i = pos; i < n-1; ++i) a[i] = a[i+1]] *)
Lemma arr_remove {A} (a : arr A) xs y ys n pos :
  pre a (xs ++ y :: ys) -> pos = length xs -> n = length (xs ++ y :: ys) ->
  exists a1,
    for_up pos (n - 1 - pos) (fun i s => do x <- aget s (i + 1); aset s i x) a = Ok a1 /\
    pre a1 (xs ++ ys) /\ length a1 = length a /\
    (xs = [] -> ys = [] -> a1 = a).
Proof.
  intros [R ->] -> ->. rewrite !app_length. cbn [length].
  replace (length xs + S (length ys) - 1 - length xs) with (length ys) by lia.
  rewrite map_app, <- app_assoc. cbn [map app].
  change (Some y :: map Some ys ++ R) with ([Some y] ++ map Some ys ++ R).
  rewrite (@for_up_move_left A (fun i => i) (fun i => i + 1) (length xs) (length ys)); try lia.
  - eexists. split; [reflexivity|]. split; [|split].
    + eexists. rewrite map_app, <- app_assoc. reflexivity.
    + repeat (rewrite ?app_length, ?map_length, ?skipn_length; cbn [length]). lia.
    + intros -> ->. reflexivity.
  - discriminate.
  - intros j Hj. rewrite map_length. simpl. lia.
  - intros j Hj. rewrite map_length. lia.
Qed.

(** Copy a middle piece of [src] behind the initialised prefix of [dst]. *)
Lemma arr_copy {A} (fd fs : nat -> nat) (src dst : arr A) ps xs ys n :
  pre src (ps ++ xs) -> pre dst ys -> n = length xs -> length ys + length xs <= length dst ->
  (forall j, j < n -> fs j = length ps + j) ->
  (forall j, j < n -> fd j = length ys + j) ->
  exists d,
    for_up 0 n (fun i s => do x <- aget src (fs i); aset s (fd i) x) dst = Ok d /\
    pre d (ys ++ xs) /\ length d = length dst.
Proof.
  intros [R ->] [R' ->] -> HL Hs Hd. rewrite app_length, map_length in HL.
  destruct (@split_at _ R' (length xs)) as (D2 & D3 & -> & L2); [lia|].
  rewrite (@for_up_copy A fd fs 0 (length xs) _ xs (map Some ps) R (map Some ys) D2 D3); auto.
  - eexists. split; [reflexivity|]. split.
    + exists D3. now rewrite map_app, <- app_assoc.
    + rewrite !app_length, !map_length. lia.
  - now rewrite map_app, <- app_assoc.
  - intros j Hj. rewrite map_length. now apply Hs.
  - intros j Hj. rewrite map_length. now apply Hd.
Qed.

(** Overwrite the first [n] cells of [dst] (whatever they hold) and keep the cells behind. *)
Lemma arr_copy_front {A} (fd fs : nat -> nat) (src dst : arr A) ps xs D R n :
  pre src (ps ++ xs) -> dst = D ++ R -> n = length xs -> length D = n ->
  (forall j, j < n -> fs j = length ps + j) ->
  (forall j, j < n -> fd j = j) ->
  for_up 0 n (fun i s => do x <- aget src (fs i); aset s (fd i) x) dst = Ok (map Some xs ++ R).
Proof.
  intros [R0 ->] -> -> HL Hs Hd.
  apply (@for_up_copy A fd fs 0 (length xs) _ xs (map Some ps) R0 [] D R); auto.
  - now rewrite map_app, <- app_assoc.
  - intros j Hj. rewrite map_length. now apply Hs.
Qed.

(** [for (i = n; i > 0; --i) a[i+m-1] = a[i-1]]: make room for [m] cells at the front. *)
Lemma arr_room {A} (a : arr A) xs n m :
  pre a xs -> n = length xs -> 0 < m -> n + m <= length a ->
  exists D R,
    for_down n n (fun i s => do x <- aget s (i - 1); aset s (i + m - 1) x) a = Ok (D ++ map Some xs ++ R) /\
    length D = m /\ length (D ++ map Some xs ++ R) = length a.
Proof.
  intros [R ->] -> Hm HL. rewrite app_length, map_length in HL.
  destruct (@split_at _ R m) as (D & R' & -> & LD); [lia|].
  pose proof (@for_down_move_right A (fun i => i + m - 1) (fun i => i - 1) (length xs) (length xs) xs [] D R') as H.
  cbn [app] in H. rewrite H; auto.
  - eexists _, R'. split; [reflexivity|]. split.
    + rewrite firstn_length, app_length, map_length. lia.
    + rewrite !app_length, firstn_length, app_length, map_length. lia.
  - destruct D; [simpl in LD; lia|discriminate].
  - intros j Hj. simpl. lia.
  - intros j Hj. simpl. lia.
Qed.

(** [for (i = 0; i < n; ++i) a[i] = a[m+i]]: drop the first [m] cells. *)
Lemma arr_drop {A} (a : arr A) xs ys n m :
  pre a (xs ++ ys) -> m = length xs -> n = length ys -> 0 < m ->
  exists a1 T,
    for_up 0 n (fun i s => do x <- aget s (m + i); aset s i x) a = Ok a1 /\
    a1 = map Some ys ++ T /\ length a1 = length a /\
    (forall i, length (xs ++ ys) <= i -> nth_error a1 i = nth_error a i) /\
    (* the last copied cell is still there *)
    (forall ys' y, ys = ys' ++ [y] -> nth_error a1 (length (xs ++ ys) - 1) = Some (Some y)).
Proof.
  intros [R ->] -> -> Hm. rewrite map_app, <- app_assoc.
  pose proof (@for_up_move_left A (fun i => i) (fun i => length xs + i) 0 (length ys) ys [] (map Some xs) R) as H.
  cbn [app] in H. rewrite H; auto.
  - eexists _, _. split; [reflexivity|]. split; [reflexivity|]. split; [|split].
    + repeat (rewrite ?app_length, ?map_length, ?skipn_length). lia.
    + intros i Hi. rewrite app_length in Hi.
      rewrite (app_assoc (map Some ys)), nth_error_app2
        by (rewrite ?app_length, ?skipn_length, ?app_length, ?map_length; lia).
      rewrite (app_assoc (map Some xs)), (nth_error_app2 (map Some xs ++ map Some ys))
        by (rewrite ?app_length, ?map_length; lia).
      f_equal. rewrite ?app_length, ?skipn_length, ?app_length, ?map_length. lia.
    + intros ys' y E.
      assert (LY : length ys = S (length ys')) by (subst ys; rewrite app_length; simpl; lia).
      rewrite app_length.
      rewrite (app_assoc (map Some ys)), nth_error_app1
        by (rewrite ?app_length, ?skipn_length, ?app_length, ?map_length; lia).
      rewrite nth_error_app2 by (rewrite map_length; lia).
      rewrite map_length.
      assert (Hn : forall (l : list (option A)) k i, nth_error (skipn k l) i = nth_error l (k + i)).
      { clear. intros l k. revert l. induction k as [|k IH]; intros l i; [reflexivity|].
        destruct l; simpl; [now destruct i|]. apply IH. }
      rewrite Hn, nth_error_app2 by (rewrite map_length; lia).
      rewrite map_length. rewrite E at 1. rewrite map_app, nth_error_app2 by (rewrite map_length; lia).
      match goal with |- nth_error _ ?k = _ => replace k with 0 end; [reflexivity|].
      rewrite map_length. lia.
  - destruct xs; [simpl in Hm; lia|discriminate].
  - intros j Hj. rewrite map_length. simpl. lia.
Qed.
