(** The bitmap iterators visit the leaf chain slot by slot. *)
From Verif Require Import Base ArrLemmas MapSpec SortedList BTreeModel BTreeLaws BTreeBranch BTreeGhost BTreeInsert SIterModel BIterModel.
Open Scope nat_scope.

Section BIterP.
Variables (L V : Type) (M : nat).
Variables (tst : L -> nat -> res bool) (ent : L -> nat -> res (Z * V)).
Hypothesis HM : 1 <= M.

(** The entries in the [n] slots from [p]. *)
Fixpoint slots (l : L) (p n : nat) : res (list (Z * V)) :=
  match n with
  | 0 => Ok []
  | S n' => do b <- tst l p;
            if (b : bool) then do e <- ent l p; do r <- slots l (S p) n'; Ok (e :: r) else slots l (S p) n'
  end.

Lemma slots_for l p n acc : for_up p n (fun i out => do b <- tst l i; if (b : bool) then do e <- ent l i; Ok (out ++ [e]) else Ok out) acc
  = do r <- slots l p n; Ok (acc ++ r).
Proof.
  revert p acc. induction n as [|n IH]; intros p acc; cbn [for_up slots bind]; [now rewrite app_nil_r|].
  destruct (tst l p) as [[]| |]; cbn [bind]; auto. destruct (ent l p) as [e| |]; cbn [bind]; auto. rewrite IH.
  destruct (slots l (S p) n); cbn [bind]; auto. now rewrite <- app_assoc.
Qed.

Lemma seek_ok l : forall n p e r f, slots l p n = Ok (e :: r) -> n <= f ->
  exists q m, bi_seek tst f l p = Ok q /\ p <= q /\ q + S m = p + n /\ ent l q = Ok e /\ slots l (S q) m = Ok r.
Proof.
  induction n as [|n IH]; intros p e r f E Hf; cbn [slots] in E; [discriminate|]. destruct f as [|f]; [lia|]. cbn [bi_seek].
  destruct (tst l p) as [[]| |]; cbn [bind] in *; try discriminate.
  - destruct (ent l p) as [e'| |] eqn:Ee; cbn [bind] in E; try discriminate.
    destruct (slots l (S p) n) as [r'| |] eqn:Er; cbn [bind] in E; try discriminate. injection E as -> ->.
    exists p, n. splits; auto; lia.
  - destruct (IH (S p) e r f E ltac:(lia)) as (q & m & H1 & H2 & H3 & H4 & H5). exists q, m. splits; auto; lia.
Qed.

Lemma next_in h i l : hl h i = Some l -> forall n p e r f, slots l (S p) n = Ok (e :: r) -> S p + n = M -> n <= S f ->
  exists q m, bi_next M tst f h i p = Ok (Iter (Some i) q) /\ q + S m = M /\ ent l q = Ok e /\ slots l (S q) m = Ok r.
Proof.
  intros El. induction n as [|n IH]; intros p e r f E Hn Hf; cbn [slots] in E; [discriminate|].
  destruct f as [|f]; cbn [bi_next]; unfold getl; rewrite El; cbn [of_opt bind].
  all: rewrite (proj2 (Nat.leb_gt (M - 1) p)) by lia; destruct (tst l (S p)) as [[]| |]; cbn [bind] in *; try discriminate.
  all: try (destruct (ent l (S p)) as [e'| |] eqn:Ee; cbn [bind] in E; try discriminate;
    destruct (slots l (S (S p)) n) as [r'| |] eqn:Er; cbn [bind] in E; try discriminate; injection E as -> ->;
    exists (S p), n; splits; auto; lia).
  - destruct n; [discriminate E|lia].
  - apply (IH (S p) e r f E); lia.
Qed.

Lemma next_out h i l : hl h i = Some l -> forall n p f, slots l (S p) n = Ok [] -> S p + n = M -> n <= f ->
  bi_next M tst f h i p = bi_enter M tst h (hnx h i).
Proof.
  intros El. induction n as [|n IH]; intros p f E Hn Hf; cbn [slots] in E.
  - destruct f as [|f]; cbn [bi_next]; unfold getl; rewrite El; cbn [of_opt bind]; now rewrite (proj2 (Nat.leb_le (M - 1) p)) by lia.
  - destruct f as [|f]; [lia|]. cbn [bi_next]; unfold getl; rewrite El; cbn [of_opt bind].
    rewrite (proj2 (Nat.leb_gt (M - 1) p)) by lia. destruct (tst l (S p)) as [[]| |]; cbn [bind] in *; try discriminate.
    + destruct (ent l (S p)) as [e'| |]; cbn [bind] in E; try discriminate. destruct (slots l (S (S p)) n); discriminate.
    + apply IH; auto; lia.
Qed.

(** From the entry at slot [q] to the end of the leaf and on. *)
Lemma loop_leaf h i l it0 out f : hl h i = Some l -> bi_enter M tst h (hnx h i) = Ok it0 -> bi_loop M tst ent f h it0 = Ok out ->
  forall r e q m, q + S m = M -> ent l q = Ok e -> slots l (S q) m = Ok r ->
  bi_loop M tst ent (S (length r) + f) h (Iter (Some i) q) = Ok (e :: r ++ out).
Proof.
  intros El E0 EL. induction r as [|e' r IH]; intros e q m Hq He Hr.
  - cbn [length Nat.add bi_loop]. unfold it_eqb at 1. cbn [it_node it_end]. unfold bi_deref. cbn [it_node it_pos of_opt bind].
    unfold getl. rewrite El. cbn [of_opt bind]. rewrite He. cbn [bind].
    rewrite (@next_out h i l El m q M Hr ltac:(lia) ltac:(lia)), E0. cbn [bind]. rewrite EL. reflexivity.
  - change (S (length (e' :: r)) + f) with (S (S (length r) + f)). cbn [bi_loop]. unfold it_eqb at 1. cbn [it_node it_end].
    unfold bi_deref. cbn [it_node it_pos of_opt bind]. unfold getl. rewrite El. cbn [of_opt bind]. rewrite He. cbn [bind].
    destruct (@next_in h i l El m q e' r M Hr ltac:(lia) ltac:(lia)) as (q' & m' & E1 & Hq' & He' & Hr'). rewrite E1. cbn [bind].
    rewrite (IH e' q' m' Hq' He' Hr'). reflexivity.
Qed.

Lemma loop_chain h : forall ls p, (forall i, In i ls -> exists l e r, hl h i = Some l /\ slots l 0 M = Ok (e :: r)) -> seg h p ls None ->
  exists it out, bi_enter M tst h (hbd ls None) = Ok it /\ bi_loop M tst ent (length out) h it = Ok out /\
    (forall O, (forall l, lo_scan O l = slots l 0 M) -> forall fuel, length ls <= fuel -> scan_chain O fuel h (hbd ls None) = Ok out) /\
    forall (R : list (list (Z * V))), Forall2 (fun i es => forall l out, hl h i = Some l -> slots l 0 M = Ok out -> Permutation out es) ls R ->
      Permutation out (concat R).
Proof.
  induction ls as [|i ls IH]; intros p F HS.
  - exists it_end, []. splits; try reflexivity.
    + intros O _ fuel _. destruct fuel; reflexivity.
    + intros R HR. inversion HR. constructor.
  - cbn [seg] in HS. destruct HS as (_ & Hn & HS).
    destruct (IH (Some i) (fun j Hj => F j (or_intror Hj)) HS) as (it0 & out & E0 & EL & ES & EP).
    destruct (F i (or_introl eq_refl)) as (l & e & r & El & Hs).
    destruct (@seek_ok l M 0 e r (S M) Hs ltac:(lia)) as (q & m & E1 & _ & Hq & He & Hr). cbn [Nat.add] in Hq.
    exists (Iter (Some i) q), (e :: r ++ out). splits.
    + cbn [hbd hd map bi_enter]. unfold getl. rewrite El. cbn [of_opt bind]. now rewrite E1.
    + cbn [length]. rewrite app_length. rewrite <- Hn in E0. exact (@loop_leaf h i l it0 out (length out) El E0 EL r e q m Hq He Hr).
    + intros O HO fuel Hf. cbn [length] in Hf. destruct fuel as [|fuel]; [lia|]. cbn [hbd hd map scan_chain].
      unfold getl. rewrite El. cbn [of_opt bind]. rewrite HO, Hs. cbn [bind]. rewrite Hn, (ES O HO fuel) by lia. reflexivity.
    + intros R HR. inversion_clear HR as [|? es ? R' H1 H2]. cbn [concat]. change (e :: r ++ out) with ((e :: r) ++ out).
      apply Permutation_app; [|now apply EP]. eapply H1; eauto.
Qed.

Lemma loop_more h : forall f it out, bi_loop M tst ent f h it = Ok out -> forall f', f <= f' -> bi_loop M tst ent f' h it = Ok out.
Proof.
  induction f as [|f IH]; intros it out E f' Hf; cbn [bi_loop] in E.
  - destruct f'; cbn [bi_loop]; destruct (it_eqb it it_end); auto; discriminate.
  - destruct f' as [|f']; [lia|]. cbn [bi_loop]. destruct (it_eqb it it_end); auto.
    destruct (bi_deref ent h it) as [e| |]; try discriminate. cbn [bind] in *.
    destruct (it_node it) as [i|]; try discriminate. cbn [of_opt bind] in *.
    destruct (bi_next M tst M h i (it_pos it)) as [it'| |]; try discriminate. cbn [bind] in *.
    destruct (bi_loop M tst ent f h it') as [r| |] eqn:Er; try discriminate. rewrite (IH _ _ Er f') by lia. exact E.
Qed.
End BIterP.
