(** print after erases of BitPBPTree and BitHPBPTree. *)
From Coq Require Import Permutation.
From Verif Require Import Base ArrLemmas MapSpec SortedList RankModel BitmapModel BTreeModel BTreeLaws BTreeInsert BTreeErase BTreeSpec
  FLeafModel FLeafProofs BitTreeModel InsSpec XTree BitProofs BitHModel BitHProofs BitEModel BitESpec BitEProofs PrintModel PrintSpec BPrintModel BPrintSpec BPrintProofs BhPrint.
Open Scope nat_scope.

Lemma ops_sorted {V} (os : list (bop V)) : forall es, sorted es -> sorted (fold_left (fun es o => apply_op o es) os es).
Proof. induction os as [|o os IH]; intros es H; cbn [fold_left]; auto. apply IH. destruct o; cbn [apply_op]; [now apply sorted_ins|now apply sorted_del]. Qed.

Section BePrint.
Variables (V : Type) (t : ktype) (N M : nat).
Hypothesis Ht : (1 <= kt_bits t <= 64)%Z.
Hypothesis HN : 2 <= N.
Hypothesis H64 : N mod 64 <> 0.
Hypothesis HM : 2 <= M.
Hypothesis HW : (N.of_nat M < W)%N.
Variable O : leafops (fleaf V) V.
Variable rep : fleaf V -> list (Z * V) -> Prop.
Hypothesis LL : leaf_laws O M (M / 2) (bkok t) rep.
Hypothesis HR : forall l es, rep l es <-> bh_rep t M l es.
Hypothesis OE : lo_erase O = fl_erase (fun _ => 0%Z) M.
Hypothesis OM : lo_merge O = fl_merge M.
Hypothesis OB : lo_balance O = fl_balance t (fun _ => 0%Z) M.
Hypothesis OK : forall l es x v, rep l ((x, v) :: es) -> lo_minkey O l = Ok x.
Hypothesis OS : forall l, lo_scan O l = lo_scan (fp_ops V t (fun _ => 0%Z) (fun _ => 0%Z) M) l.

Lemma be_print_ok os : Forall (ins_in t) (map bop_of os) -> ck_fine t N M O (bg_new O) (map bop_of os) = true ->
  exists tr out o, be_run t N M O (bg_new O) (map bop_of os) = Ok tr /\ bg_print N M tr = Ok out /\ bdrawing N tr out /\
    lists (m_run os) o /\ Permutation (shown_keys out) (map fst o).
Proof.
  intros HF CK.
  assert (I0 : btinv t N M rep (bg_new O) []) by (apply btinvs_inv, bg_new_inv; auto).
  destruct (@ck_run_ok V t N M Ht HN H64 HM O rep LL (rk HR) (t_er HR OE) (t_ab HR OE) (t_me HR OM) (t_ba HW HR OB) OK (map bop_of os) (bg_new O) [] HF I0 CK)
    as (tr & E & HI).
  destruct (@print_map V t N M tr O rep _ (m_run os) LL OS (fun l es H => proj1 (proj1 (HR l es) H)) HI) as (out & o & H).
  - apply ops_sorted. constructor.
  - intros k. apply ops_run.
  - exists tr, out, o. split; [exact E|exact H].
Qed.
End BePrint.

Lemma bit_print_erase V t N M os (O := bit_ops V t M) : (1 <= kt_bits t <= 64)%Z -> 2 <= N -> N mod 64 <> 0 -> 2 <= M -> (N.of_nat M < W)%N ->
  Forall (ins_in t) (map bop_of os) -> ck_fine t N M O (bt_new V t M) (map bop_of os) = true ->
  exists tr out o, bt_hist t N M (map bop_of os) = Ok tr /\ bg_print N M tr = Ok out /\ bdrawing N tr out /\
    lists (m_run os) o /\ Permutation (shown_keys out) (map fst o).
Proof.
  intros Ht HN H64 HM HW. apply (@be_print_ok V t N M Ht HN H64 HM HW (bit_ops V t M) (bit_rep t M)); auto.
  - now apply bit_leaf_laws.
  - intros l es. apply (bit_rep_bh Ht HM HW).
  - intros l es x v H. apply (bit_rep_bh Ht HM HW) in H. exact (e_minkey Ht HM HW H).
Qed.
Lemma bh_print_erase V t N M os (O := bh_ops V t M) : (1 <= kt_bits t <= 64)%Z -> 2 <= N -> N mod 64 <> 0 -> 2 <= M -> M mod 64 <> 0 -> (N.of_nat M < W)%N ->
  Forall (ins_in t) (map bop_of os) -> ck_fine t N M O (bh_new V t M) (map bop_of os) = true ->
  exists tr out o, be_run t N M O (bh_new V t M) (map bop_of os) = Ok tr /\ bg_print N M tr = Ok out /\ bdrawing N tr out /\
    lists (m_run os) o /\ Permutation (shown_keys out) (map fst o).
Proof.
  intros Ht HN H64 HM HM64 HW. apply (@be_print_ok V t N M Ht HN H64 HM HW (bh_ops V t M) (bh_rep t M)); auto.
  - now apply bh_leaf_laws.
  - tauto.
  - intros l es x v H. exact (e_minkey Ht HM HW H).
Qed.
