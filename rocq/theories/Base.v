(** Outcome monad, bounded arrays with uninitialised cells, counted loops.

    Nothing in this file models a particular line of the repository; it is the
    vocabulary in which the C++ code is transcribed.  The three outcomes are
    - [Ok a]   : the code computes [a];
    - [UB]     : the code performs an access that C++ leaves undefined (index outside a
                 node's array, null / freed / wrong-kind node, uninitialised slot);
    - [NoFuel] : a loop of the model ran out of its step bound (never returned by a
                 computation covered by a positive theorem, since those say [Ok]). *)
From Coq Require Export List Arith ZArith Lia Bool.
From Coq Require Export ZifyBool ZifyNat ZifyN.
Export ListNotations.
Global Set Implicit Arguments.
Global Unset Strict Implicit.
Ltac Zify.zify_post_hook ::= Z.div_mod_to_equations.
Global Arguments Nat.div : simpl never.
Global Arguments Nat.modulo : simpl never.

(** Split conjunctions that are visible as such, without unfolding definitions. *)
Ltac splits := repeat match goal with |- _ /\ _ => split end.

Inductive res (A : Type) : Type := Ok (a : A) | UB | NoFuel.
Arguments Ok {A} a.
Arguments UB {A}.
Arguments NoFuel {A}.

Definition bind {A B} (m : res A) (f : A -> res B) : res B :=
  match m with Ok a => f a | UB => UB | NoFuel => NoFuel end.

Notation "'do' x <- m ; k" := (bind m (fun x => k))
  (at level 200, x pattern, m at level 100, k at level 200, right associativity).

(** Dereferencing a possibly null / freed reference. *)
Definition of_opt {A} (o : option A) : res A := match o with Some a => Ok a | None => UB end.

(** A C array of fixed length; [None] marks a cell that was never written. *)
Definition arr (A : Type) := list (option A).
Definition anew {A} (n : nat) : arr A := repeat None n.

Definition aget {A} (a : arr A) (i : nat) : res A :=
  match nth_error a i with Some (Some x) => Ok x | _ => UB end.

Fixpoint lset {A} (l : list A) (i : nat) (x : A) : option (list A) :=
  match l, i with
  | [], _ => None
  | _ :: t, O => Some (x :: t)
  | h :: t, S j => match lset t j x with Some t' => Some (h :: t') | None => None end
  end.

Definition aset {A} (a : arr A) (i : nat) (x : A) : res (arr A) := of_opt (lset a i (Some x)).

(** [for (i = lo; <n rounds>; ++i) s = f i s] *)
Fixpoint for_up {S} (lo n : nat) (f : nat -> S -> res S) (s : S) : res S :=
  match n with
  | O => Ok s
  | Datatypes.S n' => do s' <- f lo s; for_up (Datatypes.S lo) n' f s'
  end.

(** [for (i = hi; <n rounds>; --i) s = f i s] *)
Fixpoint for_down {S} (hi n : nat) (f : nat -> S -> res S) (s : S) : res S :=
  match n with
  | O => Ok s
  | Datatypes.S n' => do s' <- f hi s; for_down (pred hi) n' f s'
  end.

(** ** Facts *)

Lemma lset_app {A} (p : list A) y q x : lset (p ++ y :: q) (length p) x = Some (p ++ x :: q).
Proof. induction p as [|a p IH]; simpl; [reflexivity|]. now rewrite IH. Qed.

Lemma lset_app_at {A} (p : list A) y q x i : i = length p -> lset (p ++ y :: q) i x = Some (p ++ x :: q).
Proof. intros ->; apply lset_app. Qed.

Lemma aset_app {A} (p : arr A) y q x i : i = length p -> aset (p ++ y :: q) i x = Ok (p ++ Some x :: q).
Proof. intros ->. unfold aset. now rewrite lset_app. Qed.

Lemma aget_app {A} (p : arr A) x q i : i = length p -> aget (p ++ Some x :: q) i = Ok x.
Proof. intros ->. unfold aget. rewrite nth_error_app2 by lia. now rewrite Nat.sub_diag. Qed.

Lemma lset_length {A} (l : list A) i x l' : lset l i x = Some l' -> length l' = length l.
Proof.
  revert i l'; induction l as [|h t IH]; intros [|i] l' H; simpl in *; try discriminate.
  - now injection H as <-.
  - destruct (lset t i x) as [t'|] eqn:E; [|discriminate]. injection H as <-. simpl. f_equal. eauto.
Qed.

Lemma aset_length {A} (a : arr A) i x a' : aset a i x = Ok a' -> length a' = length a.
Proof.
  unfold aset, of_opt. destruct (lset a i (Some x)) eqn:E; [|discriminate].
  intros [= <-]. eapply lset_length; eauto.
Qed.

Lemma lset_some {A} (l : list A) i x : i < length l -> exists l', lset l i x = Some l'.
Proof.
  revert i; induction l as [|h t IH]; intros [|i] H; simpl in *; try lia; [eauto|].
  destruct (IH i) as [t' E]; [lia|]. rewrite E. eauto.
Qed.

Lemma lset_nth {A} (l : list A) i x l' j :
  lset l i x = Some l' -> nth_error l' j = if j =? i then Some x else nth_error l j.
Proof.
  revert i l' j; induction l as [|h t IH]; intros [|i] l' j H; simpl in *; try discriminate.
  - injection H as <-. destruct j; reflexivity.
  - destruct (lset t i x) as [t'|] eqn:E; [|discriminate]. injection H as <-.
    destruct j; [reflexivity|]. simpl. now apply IH.
Qed.

Lemma aset_nth {A} (a : arr A) i x a' j :
  aset a i x = Ok a' -> nth_error a' j = if j =? i then Some (Some x) else nth_error a j.
Proof.
  unfold aset, of_opt. destruct (lset a i (Some x)) eqn:E; [|discriminate].
  intros [= <-]. now apply lset_nth.
Qed.

Lemma aset_ok {A} (a : arr A) i x : i < length a -> exists a', aset a i x = Ok a'.
Proof. intros H. unfold aset. destruct (lset_some (Some x) H) as [l E]. rewrite E. simpl. eauto. Qed.

Lemma split_at {A} (l : list A) n : n <= length l -> exists p q, l = p ++ q /\ length p = n.
Proof.
  intros H. exists (firstn n l), (skipn n l). split; [now rewrite firstn_skipn|].
  rewrite firstn_length. lia.
Qed.

Lemma split_at3 {A} (l : list A) a b : a + b <= length l ->
  exists p q r, l = p ++ q ++ r /\ length p = a /\ length q = b.
Proof.
  intros H. destruct (@split_at A l a) as (p & q & E & L); [lia|]. subst l.
  rewrite app_length in H. destruct (@split_at A q b) as (q1 & q2 & E2 & L2); [lia|]. subst q.
  exists p, q1, q2. auto.
Qed.

(** Loop over a pair of independent components. *)
Lemma for_up_pair {S T} lo n (f : nat -> S -> res S) (g : nat -> T -> res T) s s' t t' :
  for_up lo n f s = Ok s' -> for_up lo n g t = Ok t' ->
  for_up lo n (fun i p => do a <- f i (fst p); do b <- g i (snd p); Ok (a, b)) (s, t) = Ok (s', t').
Proof.
  revert lo s t; induction n as [|n IH]; simpl; intros lo s t Hs Ht.
  - congruence.
  - destruct (f lo s) as [a| |] eqn:Ef; simpl in Hs; try discriminate.
    destruct (g lo t) as [b| |] eqn:Eg; simpl in Ht; try discriminate.
    simpl. now apply IH.
Qed.

Lemma for_down_pair {S T} lo n (f : nat -> S -> res S) (g : nat -> T -> res T) s s' t t' :
  for_down lo n f s = Ok s' -> for_down lo n g t = Ok t' ->
  for_down lo n (fun i p => do a <- f i (fst p); do b <- g i (snd p); Ok (a, b)) (s, t) = Ok (s', t').
Proof.
  revert lo s t; induction n as [|n IH]; simpl; intros lo s t Hs Ht.
  - congruence.
  - destruct (f lo s) as [a| |] eqn:Ef; simpl in Hs; try discriminate.
    destruct (g lo t) as [b| |] eqn:Eg; simpl in Ht; try discriminate.
    simpl. now apply IH.
Qed.

Lemma for_up_ext {S} lo n (f g : nat -> S -> res S) s :
  (forall i s, lo <= i < lo + n -> f i s = g i s) -> for_up lo n f s = for_up lo n g s.
Proof.
  revert lo s; induction n as [|n IH]; simpl; intros lo s H; [reflexivity|].
  rewrite H by lia. destruct (g lo s); simpl; auto. apply IH. intros; apply H; lia.
Qed.

(** Copying [n] initialised cells of one array into another array. *)
Lemma for_up_copy {A} (fd fs : nat -> nat) lo n (src : arr A) :
  forall (xs : list A) S1 S2 D1 D2 D3,
  src = S1 ++ map Some xs ++ S2 -> length xs = n -> length D2 = n ->
  (forall j, j < n -> fs (lo + j) = length S1 + j) ->
  (forall j, j < n -> fd (lo + j) = length D1 + j) ->
  for_up lo n (fun i d => do x <- aget src (fs i); aset d (fd i) x) (D1 ++ D2 ++ D3)
  = Ok (D1 ++ map Some xs ++ D3).
Proof.
  revert lo; induction n as [|n IH]; intros lo xs S1 S2 D1 D2 D3 Es Ex ED Hs Hd.
  - destruct xs; [|discriminate]. destruct D2; [|discriminate]. reflexivity.
  - destruct xs as [|x xs]; [discriminate|]. destruct D2 as [|y D2]; [discriminate|].
    simpl in *. injection Ex as Ex. injection ED as ED.
    assert (E0 : fs lo = length S1) by (specialize (Hs 0); rewrite !Nat.add_0_r in Hs; apply Hs; lia).
    assert (E1 : fd lo = length D1) by (specialize (Hd 0); rewrite !Nat.add_0_r in Hd; apply Hd; lia).
    rewrite Es at 1. rewrite aget_app by assumption. simpl.
    rewrite aset_app by assumption. simpl.
    replace (D1 ++ Some x :: D2 ++ D3) with ((D1 ++ [Some x]) ++ D2 ++ D3) by now rewrite <- app_assoc.
    rewrite (IH (Datatypes.S lo) xs (S1 ++ [Some x]) S2); try assumption.
    + now rewrite <- app_assoc.
    + rewrite <- app_assoc. exact Es.
    + intros j Hj. rewrite app_length. specialize (Hs (Datatypes.S j)).
      rewrite <- Nat.add_succ_comm in Hs. rewrite Hs by lia. simpl. lia.
    + intros j Hj. rewrite app_length. specialize (Hd (Datatypes.S j)).
      rewrite <- Nat.add_succ_comm in Hd. rewrite Hd by lia. simpl. lia.
Qed.

(** Moving [n] initialised cells to the left inside one array. *)
Lemma for_up_move_left {A} (fd fs : nat -> nat) lo n :
  forall (xs : list A) P D R,
  length xs = n -> D <> [] ->
  (forall j, j < n -> fs (lo + j) = length P + length D + j) ->
  (forall j, j < n -> fd (lo + j) = length P + j) ->
  for_up lo n (fun i a => do x <- aget a (fs i); aset a (fd i) x) (P ++ D ++ map Some xs ++ R)
  = Ok (P ++ map Some xs ++ skipn n (D ++ map Some xs) ++ R).
Proof.
  revert lo; induction n as [|n IH]; intros lo xs P D R Ex HD Hs Hd.
  - destruct xs; [|discriminate]. simpl. now rewrite app_nil_r.
  - destruct xs as [|x xs]; [discriminate|]. destruct D as [|y D]; [congruence|].
    simpl in Ex. injection Ex as Ex.
    assert (E0 : fs lo = length (P ++ y :: D)).
    { specialize (Hs 0); rewrite !Nat.add_0_r in Hs. rewrite Hs by lia. now rewrite app_length. }
    assert (E1 : fd lo = length P) by (specialize (Hd 0); rewrite !Nat.add_0_r in Hd; apply Hd; lia).
    cbn [for_up].
    replace (P ++ (y :: D) ++ map Some (x :: xs) ++ R)
       with ((P ++ y :: D) ++ Some x :: map Some xs ++ R) by (now rewrite <- !app_assoc).
    rewrite aget_app by assumption. cbn [bind].
    rewrite <- !app_assoc. cbn [app]. rewrite aset_app by assumption. cbn [bind].
    replace (P ++ Some x :: D ++ Some x :: map Some xs ++ R)
       with ((P ++ [Some x]) ++ (D ++ [Some x]) ++ map Some xs ++ R) by (now rewrite <- !app_assoc).
    rewrite (IH (Datatypes.S lo) xs); try assumption.
    + rewrite <- !app_assoc. cbn [app map skipn]. reflexivity.
    + destruct D; discriminate.
    + intros j Hj. rewrite !app_length. specialize (Hs (Datatypes.S j)).
      rewrite <- Nat.add_succ_comm in Hs. rewrite Hs by lia. simpl. lia.
    + intros j Hj. rewrite !app_length. specialize (Hd (Datatypes.S j)).
      rewrite <- Nat.add_succ_comm in Hd. rewrite Hd by lia. simpl. lia.
Qed.

(** Moving [n] initialised cells to the right inside one array (descending loop). *)
Lemma for_down_move_right {A} (fd fs : nat -> nat) n :
  forall hi (xs : list A) P D R,
  length xs = n -> D <> [] ->
  (forall j, j < n -> fs (hi - j) = length P + (n - 1 - j)) ->
  (forall j, j < n -> fd (hi - j) = length P + length D + (n - 1 - j)) ->
  n <= hi ->
  for_down hi n (fun i a => do x <- aget a (fs i); aset a (fd i) x) (P ++ map Some xs ++ D ++ R)
  = Ok (P ++ firstn (length D) (map Some xs ++ D) ++ map Some xs ++ R).
Proof.
  induction n as [|n IH]; intros hi xs P D R Ex HD Hs Hd Hhi.
  - destruct xs; [|discriminate]. simpl. now rewrite firstn_all.
  - destruct (exists_last (l := xs)) as (xs' & x & E); [destruct xs; discriminate|]. subst xs.
    rewrite app_length in Ex; simpl in Ex.
    destruct (exists_last HD) as (D' & y & E). subst D.
    assert (E0 : fs hi = length (P ++ map Some xs')).
    { specialize (Hs 0); rewrite Nat.sub_0_r in Hs. rewrite Hs by lia. rewrite app_length, map_length. lia. }
    assert (E1 : fd hi = length (P ++ map Some xs' ++ Some x :: D')).
    { specialize (Hd 0); rewrite Nat.sub_0_r in Hd. rewrite Hd by lia. repeat (rewrite app_length; simpl).
      rewrite map_length. lia. }
    cbn [for_down]. rewrite map_app. cbn [map].
    replace (P ++ (map Some xs' ++ [Some x]) ++ (D' ++ [y]) ++ R)
       with ((P ++ map Some xs') ++ Some x :: (D' ++ y :: R)) by (rewrite <- !app_assoc; reflexivity).
    rewrite aget_app by assumption. cbn [bind].
    replace ((P ++ map Some xs') ++ Some x :: (D' ++ y :: R))
       with ((P ++ map Some xs' ++ Some x :: D') ++ y :: R) by (rewrite <- !app_assoc; reflexivity).
    rewrite aset_app by assumption. cbn [bind].
    replace ((P ++ map Some xs' ++ Some x :: D') ++ Some x :: R)
       with (P ++ map Some xs' ++ (Some x :: D') ++ (Some x :: R)) by (rewrite <- !app_assoc; reflexivity).
    rewrite (IH (pred hi) xs' P (Some x :: D')); try lia.
    + f_equal. f_equal.
      rewrite <- !app_assoc. cbn [app].
      replace (length (D' ++ [y])) with (length (Some x :: D')) by (rewrite app_length; simpl; lia).
      f_equal.
      replace (map Some xs' ++ Some x :: D' ++ [y]) with ((map Some xs' ++ Some x :: D') ++ [y])
        by (rewrite <- !app_assoc; reflexivity).
      rewrite (firstn_app _ _ [y]).
      replace (length (Some x :: D') - length (map Some xs' ++ Some x :: D')) with 0
        by (rewrite app_length; cbn [length]; lia).
      cbn [firstn]. now rewrite app_nil_r.
    + discriminate.
    + intros j Hj. replace (pred hi - j) with (hi - S j) by lia. rewrite Hs by lia. lia.
    + intros j Hj. replace (pred hi - j) with (hi - S j) by lia. rewrite Hd by lia.
      rewrite app_length; simpl. lia.
Qed.
