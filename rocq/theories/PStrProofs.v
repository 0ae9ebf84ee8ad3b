From Verif Require Import Base PStrModel PStrSpec.
Open Scope Z_scope.

Lemma c_str_plain s : ~ In 0 s -> c_str s = s ++ [0].
Proof.
  induction s as [|c r IH]; simpl; intros H; [reflexivity|].
  destruct (Z.eqb_spec c 0); [tauto|]. rewrite IH by tauto. reflexivity.
Qed.

Lemma store_from_spec s : forall (a : arr Z) i, (i + length s <= length a)%nat ->
  store_from a i s = Ok (firstn i a ++ map Some s ++ skipn (i + length s) a).
Proof.
  induction s as [|c r IH]; intros a i H; cbn [store_from length] in *.
  - rewrite Nat.add_0_r. cbn [map app]. now rewrite firstn_skipn.
  - destruct (@split_at _ a i) as (p & q & -> & Lp); [lia|]. rewrite app_length in H.
    destruct q as [|y q]; [cbn [length] in H; lia|].
    rewrite aset_app by lia. cbn [bind]. rewrite IH by (rewrite app_length in *; cbn [length] in *; lia).
    f_equal.
    replace (p ++ Some c :: q) with ((p ++ [Some c]) ++ q) by now rewrite <- app_assoc.
    replace (S i) with (length (p ++ [Some c])) at 1 by (rewrite app_length; simpl; lia).
    rewrite firstn_app, Nat.sub_diag, firstn_all. cbn [firstn]. rewrite app_nil_r.
    rewrite <- Lp. rewrite firstn_app, Nat.sub_diag, firstn_all. cbn [firstn]. rewrite app_nil_r.
    rewrite (skipn_app _ (p ++ [Some c]) q), (skipn_app _ p (y :: q)).
    replace (skipn (S (length p) + length r) (p ++ [Some c])) with (@nil (option Z))
      by (symmetry; apply skipn_all2; rewrite app_length; cbn [length]; lia).
    replace (skipn (length p + S (length r)) p) with (@nil (option Z))
      by (symmetry; apply skipn_all2; lia).
    rewrite app_length. cbn [app length].
    replace (S (length p) + length r - (length p + 1))%nat with (length r) by lia.
    replace (length p + S (length r) - length p)%nat with (S (length r)) by lia.
    cbn [skipn map]. rewrite <- app_assoc. reflexivity.
Qed.

Lemma c_read_spec s rest : ~ In 0 s -> c_read (map Some s ++ Some 0 :: rest) = Ok s.
Proof.
  induction s as [|c r IH]; simpl; intros H; [reflexivity|].
  destruct (Z.eqb_spec c 0); [tauto|]. rewrite IH by tauto. reflexivity.
Qed.

Lemma strcpy_spec (a : arr Z) s : ~ In 0 s -> (length s < length a)%nat ->
  exists a', strcpy a s = Ok a' /\ length a' = length a /\ c_read a' = Ok s.
Proof.
  intros H L. unfold strcpy. rewrite c_str_plain by assumption.
  rewrite store_from_spec by (rewrite app_length; cbn [length]; lia). eexists; split; [reflexivity|].
  cbn [firstn app]. split.
  - rewrite app_length, map_length, skipn_length, app_length. cbn [length]. lia.
  - rewrite map_app. cbn [map]. rewrite <- app_assoc. cbn [app]. now apply c_read_spec.
Qed.

(** The object holds [cur]; before the first assignment it may hold nothing readable. *)
Definition holds (x : cheap * pstring) (cur : option (list Z)) : Prop :=
  length (sso (snd x)) = S sso_chars /\
  match str (snd x) with
  | None => forall s, cur = Some s -> c_read (sso (snd x)) = Ok s /\ (length s <= 15)%nat
  | Some p => exists a s, cur = Some s /\ deref (fst x) p = Ok a /\ c_read a = Ok s /\ (15 < length s)%nat
  end.

Lemma drop_old x cur : holds x cur ->
  exists h', match str (snd x) with Some p => delete_str (fst x) p | None => Ok (fst x) end = Ok h'.
Proof.
  destruct x as (h & b & [p|]); cbn [fst snd str]; intros (_ & H); [|eauto].
  cbn [str snd fst] in H. destruct H as (a & s & _ & Hd & Hr & _).
  unfold delete_str. rewrite Hd. cbn [bind]. rewrite Hr. cbn [bind].
  unfold deref in Hd. destruct (nth_error h p) eqn:E; [|discriminate].
  destruct (@lset_some _ h p (@None (arr Z))) as [h' Eh].
  { apply nth_error_Some. congruence. }
  rewrite Eh. cbn [of_opt]. eauto.
Qed.

Lemma set_holds x cur v : holds x cur -> ~ In 0 v ->
  exists y, ps_step x (PSet v) = Ok y /\ holds y (Some v).
Proof.
  intros H Hv. destruct (drop_old H) as [h' Eh]. destruct x as (h & s). cbn [fst snd] in *.
  cbn [ps_step fst snd]. unfold ps_set. rewrite Eh.
  destruct (Nat.leb_spec (length v) sso_chars) as [L|L]; cbn [bind]; unfold sso_chars in L.
  - destruct H as (Hl & _). cbn [snd] in Hl.
    destruct (@strcpy_spec (sso s) v Hv) as (b & Eb & Lb & Rb); [rewrite Hl; unfold sso_chars; lia|].
    rewrite Eb. cbn [bind]. eexists; split; [reflexivity|]. split; cbn [snd sso str]; [congruence|].
    intros s' [= <-]. split; [exact Rb|lia].
  - destruct (@strcpy_spec (repeat (Some 0) (S (length v))) v Hv) as (b & Eb & Lb & Rb);
      [rewrite repeat_length; lia|].
    rewrite Eb. cbn [bind]. eexists; split; [reflexivity|]. destruct H as (Hl & _).
    split; cbn [snd fst sso str]; [exact Hl|].
    exists b, v. splits; [reflexivity| |exact Rb|lia].
    unfold deref. rewrite nth_error_app2 by lia. now rewrite Nat.sub_diag.
Qed.

Lemma reset_holds x cur : holds x (Some cur) -> (length cur <= 15)%nat ->
  exists y, ps_step x PReset = Ok y /\ holds y (Some []).
Proof.
  destruct x as (h & b & [p|]); intros (Hl & H) L; cbn [snd fst str sso] in *.
  - destruct H as (a & s & [= ->] & _ & _ & L2). lia.
  - cbn [ps_step]. unfold ps_reset. cbn [snd fst str sso].
    destruct b as [|c b]; [discriminate|]. cbn [aset lset of_opt]. unfold aset. cbn [lset of_opt bind].
    eexists; split; [reflexivity|]. split; cbn [snd sso str]; [exact Hl|].
    intros s [= <-]. split; [reflexivity|cbn [length]; lia].
Qed.

Lemma run_holds l : forall x cur, holds x (Some cur) -> Forall no_nul l -> resets_short cur l ->
  exists y, ps_run x l = Ok y /\ holds y (Some (str_last cur l)).
Proof.
  induction l as [|o r IH]; intros x cur H Hn Hr; [exists x; split; [reflexivity|exact H]|].
  inversion Hn; subst. cbn [resets_short] in Hr. destruct Hr as (Hs & Hr).
  assert (exists y, ps_step x o = Ok y /\ holds y (Some (str_step cur o))) as (y & Ey & Hy).
  { destruct o as [v|]; [eapply set_holds; eauto|]. eapply reset_holds; eauto. }
  cbn [ps_run]. rewrite Ey. cbn [bind]. change (str_last cur (o :: r)) with (str_last (str_step cur o) r).
  eapply IH; eauto.
Qed.

Lemma holds_read x cur : holds x (Some cur) -> ps_read (fst x) (snd x) = Ok cur.
Proof.
  destruct x as (h & b & [p|]); intros (_ & H); cbn [snd fst str sso] in *; unfold ps_read; cbn [str sso].
  - destruct H as (a & s & [= ->] & Hd & Hr & _). rewrite Hd. exact Hr.
  - apply (H cur eq_refl).
Qed.

Theorem pstring_history v l : ~ In 0 v -> Forall no_nul l -> resets_short v l ->
  exists h s, ps_run ([], pstring_new) (PSet v :: l) = Ok (h, s) /\ ps_read h s = Ok (str_last v l).
Proof.
  intros Hv Hn Hr.
  destruct (@set_holds ([], pstring_new) None v) as (y & Ey & Hy).
  { split; [reflexivity|]. cbn [snd str pstring_new]. discriminate. }
  { exact Hv. }
  cbn [ps_run]. rewrite Ey. cbn [bind].
  destruct (run_holds Hy Hn Hr) as ((h & s) & E & H). exists h, s. split; [exact E|].
  exact (holds_read H).
Qed.

Theorem pstring_sets v l : ~ In 0 v -> Forall (fun w => ~ In 0 w) l ->
  exists h s, ps_run ([], pstring_new) (map PSet (v :: l)) = Ok (h, s) /\
              ps_read h s = Ok (last l v).
Proof.
  intros Hv Hl. cbn [map].
  destruct (@pstring_history v (map PSet l) Hv) as (h & s & E & R).
  - rewrite Forall_map. exact Hl.
  - clear. revert v. induction l as [|w r IH]; intros v; cbn [map resets_short]; [exact I|].
    split; [discriminate|]. apply IH.
  - exists h, s. split; [exact E|]. rewrite R. f_equal. clear.
    revert v. induction l as [|w r IH]; intros v; [reflexivity|].
    cbn [map]. change (str_last v (PSet w :: map PSet r)) with (str_last w (map PSet r)).
    rewrite IH. destruct r as [|w' r]; [reflexivity|]. change (last (w :: w' :: r) v) with (last (w' :: r) v).
    clear IH. revert w w'. induction r as [|u r IH]; intros w w'; [reflexivity|]. exact (IH w u).
Qed.
