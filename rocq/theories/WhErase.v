(** Where WhESpec lets erase of wHBPTree through, it does what erase of wBPTree does. *)
From Verif Require Import Base ArrLemmas MapSpec SortedList SearchModel BitmapModel BTreeModel BTreeGhost BTreeErase BTreeSpec BitTreeModel
  InsSpec XTree BitEProofs WbModel WbProofs WbBranch WbTree WbEModel WbESpec WbEProofs WhModel WhESpec.
Open Scope nat_scope.

Section WhE.
Variables (V : Type) (N M : nat).

Lemma wh_fix_same (t : wtree V) id pos lf mg u : wk_fix M t id pos lf = Ok mg -> wh_same_fix M t id pos lf = Ok u ->
  wh_underflow_leaf N M t id pos lf = we_underflow_leaf N M t id pos lf.
Proof.
  unfold wk_fix, wh_same_fix, wh_underflow_leaf, we_underflow_leaf. intros K S.
  destruct (getwb (wtb t) id) as [b| |]; cbn [bind] in *; auto.
  destruct (aget (bs b) 0) as [n| |]; cbn [bind] in *; auto.
  destruct (getl (wth t) lf) as [l0| |]; cbn [bind] in K; try discriminate K.
  destruct (w_count l0) as [m| |]; cbn [bind] in K; try discriminate K.
  match goal with |- (do x <- ?p; _) = _ => destruct p as [pn| |] end; cbn [bind] in *; auto.
  destruct ((1 <? pos) && ((M + 1) / 2 <? pn)).
  - destruct (hpv (wth t) lf) as [p|]; cbn [of_opt bind] in *; auto.
    change (balance_leaf (wh_ops V M) (wth t) p lf) with (balance_leaf (w_ops V M) (wth t) p lf).
    destruct (balance_leaf (w_ops V M) (wth t) p lf) as [h1| |]; cbn [bind] in *; auto.
    destruct (getl h1 lf) as [l| |]; cbn [bind] in *; auto.
    unfold wh_sepkey, w_key.
    destruct (aget (bs b) 1) as [x| |]; cbn [bind] in *; try discriminate S.
    destruct (aget (ws l) 1) as [y| |]; cbn [bind] in *; try discriminate S.
    destruct (Nat.eqb_spec x y) as [->|]; [reflexivity|discriminate S].
  - match goal with |- (do x <- ?p; _) = _ => destruct p as [nn| |] end; cbn [bind] in *; auto.
    destruct ((pos <=? n) && ((M + 1) / 2 <? nn)); [discriminate K|]. reflexivity.
Qed.

Lemma wh_SS (tr : wtree V) d id k : wh_erase_branch N M tr (S (S d)) id k =
  do b <- getwb (wtb tr) id; do pos <- wb_pos b k; do c <- wb_child N b pos;
  do r <- wh_erase_branch N M tr (S d) c k;
  let '(t1, deleted) := r in
  do b1 <- getwb (wtb t1) id; do pos1 <- wb_pos b1 k; do cb <- getwb (wtb t1) c; do m <- aget (bs cb) 0;
  if m <? (N + 1) / 2 then
    do r2 <- we_underflow_branch N (wtb t1) id pos1 c;
    let '(B2, c') := r2 in
    do b2 <- getwb B2 id; do n <- aget (bs b2) 0;
    if (S (S d) =? wdepth t1) && (n =? 0) then Ok (WTree (wth t1) B2 c' (wdepth t1 - 1), deleted)
    else Ok (WTree (wth t1) B2 (wroot t1) (wdepth t1), deleted)
  else Ok (t1, deleted).
Proof. reflexivity. Qed.
Lemma same_SS (tr : wtree V) d id k : wh_same N M tr (S (S d)) id k =
  do b <- getwb (wtb tr) id; do pos <- wb_pos b k; do c <- wb_child N b pos; wh_same N M tr (S d) c k.
Proof. reflexivity. Qed.

Lemma wh_branch_same d : forall (t : wtree V) id k n u, wk_keys N M t (S d) id k = Ok n -> wh_same N M t (S d) id k = Ok u ->
  wh_erase_branch N M t (S d) id k = we_erase_branch N M t (S d) id k.
Proof.
  induction d as [|d IH]; intros t id k n u K S.
  - cbn [wk_keys wh_same wh_erase_branch we_erase_branch] in *.
    destruct (getwb (wtb t) id) as [b| |]; cbn [bind] in *; auto.
    destruct (aget (bs b) 0) as [n0| |]; cbn [bind] in K; try discriminate K.
    destruct (wb_pos b k) as [pos| |]; cbn [bind] in *; auto.
    destruct (wb_child N b pos) as [c| |]; cbn [bind] in *; auto.
    destruct (getl (wth t) c) as [l0| |] in K; cbn [bind] in K; try discriminate K.
    destruct (wk_leaf M l0 k) as [[]| |]; cbn [bind] in K; try discriminate K.
    change (erase_leaf (wh_ops V M) (wth t) c k) with (erase_leaf (w_ops V M) (wth t) c k).
    destruct (erase_leaf (w_ops V M) (wth t) c k) as [[dl h1]| |]; cbn [bind snd] in *; auto.
    destruct (getl h1 c) as [l| |]; cbn [bind] in *; auto.
    destruct (w_count l) as [m| |]; cbn [bind] in *; auto.
    destruct (m <? (M + 1) / 2); auto.
    match type of K with context [wk_fix M ?a ?b ?c ?d] => destruct (wk_fix M a b c d) as [mg| |] eqn:E end; cbn [bind] in K; try discriminate K.
    now rewrite (wh_fix_same E S).
  - rewrite wk_SS in K. rewrite same_SS in S. rewrite wh_SS, we_SS.
    destruct (getwb (wtb t) id) as [b| |]; cbn [bind] in *; [|reflexivity|reflexivity].
    destruct (aget (bs b) 0) as [n0| |]; cbn [bind] in K; try discriminate K.
    destruct (wb_pos b k) as [pos| |]; cbn [bind] in *; [|reflexivity|reflexivity].
    destruct (wb_child N b pos) as [c| |]; cbn [bind] in *; [|reflexivity|reflexivity].
    destruct (wk_keys N M t (Datatypes.S d) c k) as [m| |] eqn:E; cbn [bind] in K; try discriminate K.
    now rewrite (IH _ _ _ _ _ E S).
Qed.

Lemma wh_erase_same (t : wtree V) k : wkh_ok N M t (OpErase V k) = true -> wh_erase N M t k = we_erase N M t k.
Proof.
  unfold wkh_ok, wk_ok, wk_erase, wh_erase, we_erase. intros H. apply andb_prop in H as [K S].
  destruct (wdepth t) as [|d]; [reflexivity|].
  destruct (wk_keys N M t (Datatypes.S d) (wroot t) k) as [n| |] eqn:E; cbn [bind] in K; try discriminate K.
  destruct (wh_same N M t (Datatypes.S d) (wroot t) k) as [u| |] eqn:F; try discriminate S.
  eapply wh_branch_same; eauto.
Qed.
Lemma wh_step_same (t : wtree V) o : wkh_ok N M t o = true -> wh_step N M t o = we_step N M t o.
Proof. destruct o as [k v|k]; intros H; [reflexivity|]. cbn [wh_step we_step]. now rewrite wh_erase_same. Qed.
Lemma wh_run_same os : forall (t : wtree V), wkh_fine N M t os = true -> wk_fine N M t os = true /\ wh_run N M t os = we_run N M t os.
Proof.
  induction os as [|o os IH]; intros t H; cbn [wkh_fine wk_fine wh_run we_run] in *; auto.
  apply andb_prop in H as [H1 H2]. rewrite (wh_step_same H1) in *. unfold wkh_ok in H1. apply andb_prop in H1 as [H1 _].
  rewrite H1. cbn [andb]. destruct (we_step N M t o) as [t'| |]; cbn [bind]; auto.
Qed.
End WhE.
