(** The table description answers what it was given. *)
From Verif Require Import Base PStrModel PStrSpec PStrProofs TabInfoModel TabInfoSpec.
Open Scope Z_scope.

Lemma columns_apply_ok tup sv : forall n, (n <= length tup)%nat -> (n <= length sv)%nat ->
  columns_apply tup sv n = Ok (combine (firstn n sv) (map toColumnType (firstn n tup))).
Proof.
  induction n as [|n IH]; intros H1 H2; cbn [columns_apply]; [reflexivity|]. rewrite IH by lia. cbn [bind].
  destruct (nth_error sv n) as [s|] eqn:Es; [|apply nth_error_None in Es; lia]. destruct (nth_error tup n) as [e|] eqn:Ee; [|apply nth_error_None in Ee; lia].
  cbn [of_opt bind]. f_equal. clear IH. revert sv tup Es Ee H1 H2. induction n as [|n IH]; intros [|a sv] [|b tup] Es Ee H1 H2; cbn [nth_error length] in *; try discriminate; try lia.
  - injection Es as ->. injection Ee as ->. reflexivity.
  - change (firstn (S n) (a :: sv)) with (a :: firstn n sv). change (firstn (S n) (b :: tup)) with (b :: firstn n tup). cbn [map combine app].
    rewrite (IH sv tup Es Ee) by lia. reflexivity.
Qed.
Lemma columns_apply_all tup sv : length sv = length tup -> columns_apply tup sv (length tup) = Ok (combine sv (map toColumnType tup)).
Proof. intros H. rewrite columns_apply_ok by lia. rewrite firstn_all2 by lia. now rewrite firstn_all2 by lia. Qed.
Lemma columns_apply_few tup sv : (length sv < length tup)%nat -> columns_apply tup sv (length tup) = UB.
Proof.
  intros H. assert (G : forall n, (n <= length tup)%nat -> (length sv < n)%nat -> columns_apply tup sv n = UB); [|apply G; lia].
  induction n as [|n IH]; intros H1 H2; [lia|]. cbn [columns_apply]. destruct (Nat.eq_dec (length sv) n) as [E|N].
  - rewrite columns_apply_ok by lia. cbn [bind]. rewrite (proj2 (nth_error_None sv n)) by lia. reflexivity.
  - rewrite IH by lia. reflexivity.
Qed.

Lemma pcolumn_ok n ct : ~ In 0 n -> exists c, pcolumn_new n ct = Ok c /\ getName c = Ok n /\ pctype c = ct.
Proof.
  intros H. unfold pcolumn_new. destruct (@strcpy_spec (repeat (Some 0) (S (length n))) n H) as (a & -> & _ & R); [rewrite repeat_length; lia|]. cbn [bind].
  eexists. split; [reflexivity|]. split; [exact R|reflexivity].
Qed.
Lemma push_all_ok : forall cv cols, plain cv -> exists cols', push_all cv cols = Ok (cols ++ cols') /\
  Forall2 (fun c x => getName x = Ok (fst c) /\ pctype x = snd c) cv cols'.
Proof.
  induction cv as [|[n ct] cv IH]; intros cols H; cbn [push_all].
  - exists []. rewrite app_nil_r. auto.
  - destruct (@pcolumn_ok n ct) as (x & E & G & T); [apply (H n ct); now left|]. cbn [fst snd]. rewrite E. cbn [bind].
    destruct (IH (cols ++ [x])) as (cols' & E' & F); [intros a b I; apply (H a b); now right|]. exists (x :: cols'). rewrite E', <- app_assoc. split; [reflexivity|]. constructor; auto.
Qed.
Lemma find_from_ok nm : forall cv cols i, Forall2 (fun (c : column) x => getName x = Ok (fst c) /\ pctype x = snd c) cv cols ->
  exists r, find_from cols i nm = Ok r /\ ((r = -1 /\ ~ In nm (map fst cv)) \/
    exists j, r = Z.of_nat (i + j) /\ nth_error (map fst cv) j = Some nm /\ forall x, (x < j)%nat -> nth_error (map fst cv) x <> Some nm).
Proof.
  induction cv as [|c cv IH]; intros cols i F; inversion F as [|? x ? cols' [G T] F']; subst; cbn [find_from map].
  - exists (-1). split; auto.
  - rewrite G. cbn [bind]. destruct (list_eq_dec Z.eq_dec (fst c) nm) as [E|N].
    + eexists. split; [reflexivity|]. right. exists 0%nat. rewrite Nat.add_0_r. splits; [auto|cbn; now rewrite E|intros; lia].
    + destruct (IH cols' (S i) F') as (r & -> & [[-> H]|(j & -> & H1 & H2)]); eexists; (split; [reflexivity|]).
      * left. split; auto. cbn. tauto.
      * right. exists (S j). splits; [f_equal; lia|exact H1|]. intros [|x'] Hx; cbn [nth_error]; [congruence|]. apply H2. lia.
Qed.
Lemma describes_ok t cv : Forall2 (fun (c : column) x => getName x = Ok (fst c) /\ pctype x = snd c) cv (pcolumns t) -> describes t cv.
Proof.
  intros F. assert (L : length (pcolumns t) = length cv) by (clear - F; induction F; cbn; congruence). unfold describes, numColumns, columnInfo. splits; auto.
  - intros i nm ct E. destruct (Z.ltb_spec (Z.of_nat i) 0) as [Q|Q]; [lia|]. rewrite Nat2Z.id. clear L Q. revert i E. induction F as [|c x cv cols [G T] F IH]; intros [|i] E; cbn [nth_error] in *; try discriminate.
    + injection E as ->. exists x. auto.
    + now apply IH.
  - intros pos [H|H]; destruct (Z.ltb_spec pos 0); auto; try lia. apply nth_error_None. lia.
  - intros nm. destruct (find_from_ok nm 0 F) as (r & E & H). exists r. split; [exact E|]. destruct H as [H|(j & H)]; [left; auto|right; exists j; auto].
Qed.
Lemma init_ok name cv : ~ In 0 name -> plain cv -> exists t, init name cv = Ok t /\ tableName t = Ok name /\ describes t cv.
Proof.
  intros Hn Hp. unfold init. destruct (@set_holds ([], pstring_new) None name) as (x & E & R); auto.
  { split; [reflexivity|]. cbn [snd str pstring_new]. discriminate. }
  cbn [ps_step fst snd] in E. rewrite E. cbn [bind].
  destruct (push_all_ok [] Hp) as (cols & -> & F). cbn [bind app]. eexists. split; [reflexivity|]. split; [exact (holds_read R)|]. now apply describes_ok.
Qed.
Lemma set_columns_ok t vec name : tableName t = Ok name -> plain vec -> exists t', setColumns t vec = Ok t' /\ tableName t' = Ok name /\ describes t' vec.
Proof.
  intros Hn Hp. unfold setColumns. destruct (push_all_ok [] Hp) as (cols & -> & F). cbn [bind app]. eexists. split; [reflexivity|]. split; [exact Hn|]. now apply describes_ok.
Qed.
Lemma combine_plain sv (ts : list ctype) : (forall nm, In nm sv -> ~ In 0 nm) -> plain (combine sv ts).
Proof. intros H nm ct I. apply in_combine_l in I. now apply H. Qed.
Lemma pinfo_new_ok tup name sv : length sv = length tup -> ~ In 0 name -> (forall nm, In nm sv -> ~ In 0 nm) ->
  exists t, pinfo_new tup name sv = Ok t /\ tableName t = Ok name /\ describes t (combine sv (map toColumnType tup)).
Proof. intros L Hn Hs. unfold pinfo_new. rewrite columns_apply_all by auto. cbn [bind]. apply init_ok; auto. now apply combine_plain. Qed.
Lemma vinfo_ok tup name sv : length sv = length tup -> ~ In 0 name -> (forall nm, In nm sv -> ~ In 0 nm) ->
  exists v t, vinfo_new tup name sv = Ok (Some v) /\ pinfo_of v = Ok t /\ tableName t = Ok name /\ describes t (combine sv (map toColumnType tup)).
Proof.
  intros L Hn Hs. unfold vinfo_new. rewrite (proj2 (Nat.eqb_eq _ _) L). cbn [negb]. rewrite columns_apply_all by auto. cbn [bind].
  eexists. unfold pinfo_of. cbn [vname vcolumns]. destruct (@init_ok name (combine sv (map toColumnType tup))) as (t & E & R); [auto|now apply combine_plain|]. exists t. split; [reflexivity|]. split; [exact E|exact R].
Qed.
Lemma vinfo_throws tup name sv : length sv <> length tup -> vinfo_new tup name sv = Ok None.
Proof. intros L. unfold vinfo_new. rewrite (proj2 (Nat.eqb_neq _ _) L). reflexivity. Qed.
Lemma pinfo_few tup name sv : (length sv < length tup)%nat -> pinfo_new tup name sv = UB.
Proof. intros L. unfold pinfo_new. now rewrite columns_apply_few. Qed.
Lemma pinfo_more tup name sv : (length tup < length sv)%nat -> ~ In 0 name -> (forall nm, In nm sv -> ~ In 0 nm) ->
  exists t, pinfo_new tup name sv = Ok t /\ describes t (combine (firstn (length tup) sv) (map toColumnType tup)).
Proof.
  intros L Hn Hs. unfold pinfo_new. rewrite columns_apply_ok by lia. cbn [bind]. rewrite (firstn_all2 tup) by lia.
  destruct (@init_ok name (combine (firstn (length tup) sv) (map toColumnType tup))) as (t & E & _ & R); [auto| |eauto].
  apply combine_plain. intros nm I. apply Hs. rewrite <- (firstn_skipn (length tup) sv). apply in_or_app. now left.
Qed.

Lemma col_types tup : map toColumnType tup = map col_of tup.
Proof. apply map_ext. intros []; reflexivity. Qed.
