(** Tables: candidate blocks and range scans. *)
From Coq Require Import Permutation.
From Verif Require Import Base SerModel SerProofs BdccModel BdccSpec BdccProofs BlockModel PTableModel BlockSpec
  LayoutProofs BlockBytes ColProofs InsColProofs BlockProofs InitProofs TableSpec TableProofs SplitProofs InsertProofs RunProofs.
Open Scope Z_scope.

Section Scan.
Variables (P : params) (dv : Z -> Prop).
Hypothesis HP : params_ok P dv.
Notation cs := (cols P).
Notation noderep := (noderep P dv).
Notation tinv := (tinv P dv).
Variable ps : list pred.
Hypothesis Hps : preds_ok dv cs ps.
Notation sat := (fun t => satisfies (dlt P) t ps).

Lemma candidates_spec gs t c l : Forall2 noderep gs (nodes t) -> candidates P t c ps = Ok l -> forall i g tp,
  In i c -> nth_error gs i = Some g -> In tp (grows g) -> sat tp -> In i l.
Proof.
  intros F. revert l. induction c as [|x c IH]; intros l E i g tp Hi Eg Ht Hs; [contradiction|].
  cbn [candidates] in E. destruct (node_at t x) as [n| |] eqn:En; cbn [bind] in E; try discriminate.
  destruct (candidate (dlt P) cs (blk n) ps) as [k| |] eqn:Ek; cbn [bind] in E; try discriminate.
  destruct (candidates P t c ps) as [l'| |] eqn:El; cbn [bind] in E; try discriminate. injection E as <-.
  destruct Hi as [->|Hi].
  - destruct (Forall2_nth F Eg) as (n' & En' & Hn). unfold node_at in En. rewrite En' in En. injection En as ->.
    assert (NE : grows g <> []) by (intros X; rewrite X in Ht; contradiction).
    destruct (candidate_spec (p_dbl HP) (n_b Hn) (lay HP) NE Hps) as (r & Er & Hr).
    rewrite Ek in Er. injection Er as ->. destruct r; [now left|]. exfalso. eapply Hr; eauto.
  - assert (In i l') by (eapply IH; eauto). destruct k; [now right|exact H].
Qed.

Section At.
Variables (gs : list gnode) (t : table).
Hypothesis F : Forall2 noderep gs (nodes t).

(** A block with rows. *)
Definition rows_at (i : nat) : list tuple := match nth_error gs i with Some g => grows g | None => [] end.
Definition full_node (i : nat) : Prop := exists g n, nth_error gs i = Some g /\ node_at t i = Ok n /\ noderep g n /\ grows g <> [].
Definition rest_of (c : list nat) (pos : nat) : list tuple :=
  match c with [] => [] | i :: r => skipn pos (rows_at i) ++ flat_map rows_at r end.

Lemma candidates_ok c : Forall full_node c -> exists l rest, candidates P t c ps = Ok l /\ Forall full_node l /\
  Permutation (flat_map rows_at c) (flat_map rows_at l ++ rest) /\ Forall (fun tp => ~ sat tp) rest.
Proof.
  induction c as [|i c IH]; intros Fc.
  - exists [], []. cbn. splits; auto.
  - inversion Fc as [|? ? Fi Fr]; subst. destruct (IH Fr) as (l & rest & E & Fl & Pl & Sr).
    destruct Fi as (g & n & Eg & En & Hn & Ne). cbn [candidates]. rewrite En. cbn [bind].
    destruct (candidate_spec (p_dbl HP) (n_b Hn) (lay HP) Ne Hps) as (r & Er & Hr).
    rewrite Er. cbn [bind]. rewrite E. cbn [bind].
    assert (RA : rows_at i = grows g) by (unfold rows_at; now rewrite Eg).
    destruct r.
    + exists (i :: l), rest. splits; auto.
      * constructor; [|exact Fl]. now exists g, n.
      * cbn [flat_map]. rewrite <- app_assoc. now apply Permutation_app_head.
    + exists l, (rows_at i ++ rest). splits; auto.
      * cbn [flat_map]. rewrite Pl. rewrite (app_assoc _ _ rest), (app_assoc _ _ rest). apply Permutation_app_tail. apply Permutation_app_comm.
      * apply Forall_app. split; [|exact Sr]. rewrite RA. apply Forall_forall. intros x Hx. now apply Hr.
Qed.

Lemma skipn_nth (A : Type) (l : list A) p x : nth_error l p = Some x -> skipn p l = x :: skipn (S p) l.
Proof. apply skipn_cons. Qed.

(** operator++ finds the next row that satisfies the predicates. *)
Lemma it_next_spec : past P = true -> forall f c pos, Forall full_node c -> c <> [] ->
  (pos <= length (rows_at (hd 0%nat c)))%nat -> (length (rest_of c pos) < f)%nat ->
  exists it, it_next P f t ps (c, Z.of_nat (length (rows_at (hd 0%nat c))), Z.of_nat pos) = Ok it /\
   ((it = ([], 0, 1) /\ Forall (fun tp => ~ sat tp) (rest_of c pos)) \/
    (exists c' pos' R1 tp, it = (c', Z.of_nat (length (rows_at (hd 0%nat c'))), Z.of_nat (S pos')) /\ Forall full_node c' /\ c' <> [] /\
       nth_error (rows_at (hd 0%nat c')) pos' = Some tp /\ sat tp /\ Forall (fun tp => ~ sat tp) R1 /\
       rest_of c pos = R1 ++ tp :: rest_of c' (S pos'))).
Proof.
  intros Hpast. induction f as [|f IH]; intros c pos Fc Nc Hpos Hf; [lia|].
  destruct c as [|i c]; [congruence|]. cbn [hd] in *. inversion Fc as [|? ? Fi Fr]; subst.
  assert (FEW : forall j, full_node j -> 2 * Z.of_nat (length (rows_at j)) <= 32768 /\ rows_at j <> []).
  { intros j (g & n & Eg & En & Hn & Ne). unfold rows_at. rewrite Eg. split; [|exact Ne]. exact (few_rows HP Hn). }
  (* the check of one row *)
  assert (ROW : forall c' pos', Forall full_node c' -> c' <> [] -> (pos' < length (rows_at (hd 0%nat c')))%nat ->
     rest_of (i :: c) pos = rest_of c' pos' ->
     exists it, (do r <- it_row P t (c', Z.of_nat (length (rows_at (hd 0%nat c'))), Z.of_nat (S pos'));
                 do ok <- in_range (dlt P) cs (blk (fst r)) (snd r) ps;
                 if ok : bool then Ok (c', Z.of_nat (length (rows_at (hd 0%nat c'))), Z.of_nat (S pos'))
                 else it_next P f t ps (c', Z.of_nat (length (rows_at (hd 0%nat c'))), Z.of_nat (S pos'))) = Ok it /\
       ((it = ([], 0, 1) /\ Forall (fun tp => ~ sat tp) (rest_of (i :: c) pos)) \/
        (exists c'' pos'' R1 tp, it = (c'', Z.of_nat (length (rows_at (hd 0%nat c''))), Z.of_nat (S pos'')) /\ Forall full_node c'' /\ c'' <> [] /\
           nth_error (rows_at (hd 0%nat c'')) pos'' = Some tp /\ sat tp /\ Forall (fun tp => ~ sat tp) R1 /\
           rest_of (i :: c) pos = R1 ++ tp :: rest_of c'' (S pos'')))).
  { intros c' pos' Fc' Nc' Lp RE. destruct c' as [|j c']; [congruence|]. cbn [hd] in *.
    inversion Fc' as [|? ? Fj Fr']; subst. pose proof (FEW j Fj) as (FJ & _). destruct Fj as (g & n & Eg & En & Hn & Ne).
    assert (RA : rows_at j = grows g) by (unfold rows_at; now rewrite Eg). rewrite RA in *.
    destruct (nth_error (grows g) pos') as [tp|] eqn:Et; [|apply nth_error_None in Et; lia].
    unfold it_row. cbn [hd_error of_opt bind]. rewrite En. cbn [bind].
    replace (Z.of_nat (S pos') - 1) with (Z.of_nat pos') by lia.
    rewrite (row_offsets_spec (n_b Hn) (lay HP) Lp). cbn [bind fst snd].
    destruct (in_range_spec (n_b Hn) (lay HP) Et Hps) as (ok & Eok & Hok).
    rewrite Eok. cbn [bind].
    assert (RR : rest_of (j :: c') pos' = tp :: rest_of (j :: c') (S pos')).
    { cbn [rest_of]. rewrite RA. rewrite (skipn_nth Et). reflexivity. }
    destruct ok.
    - eexists. split; [reflexivity|]. right. exists (j :: c'), pos', [], tp. cbn [hd]. rewrite RA. splits; auto.
      + now apply Hok.
      + cbn [app]. now rewrite RE.
    - assert (NS : ~ sat tp) by (intros X; apply Hok in X; discriminate).
      destruct (IH (j :: c') (S pos')) as (it & E & C); auto.
      + cbn [hd]. rewrite RA. lia.
      + rewrite RE, RR in Hf. cbn [length] in Hf. lia.
      + cbn [hd] in E. rewrite RA in E. exists it. split; [exact E|]. rewrite RE, RR. destruct C as [(-> & C)|(c'' & p'' & R1 & tp' & C1 & C2 & C3 & C4 & C5 & C6 & C7)].
        * left. split; [reflexivity|]. now constructor.
        * right. exists c'', p'', (tp :: R1), tp'. splits; auto. now rewrite C7. }
  pose proof (FEW i Fi) as (FI & _).
  cbn [it_next]. replace (w16 (Z.of_nat pos + 1)) with (Z.of_nat pos + 1) by (unfold w16; rewrite Z.mod_small; lia).
  destruct (Z.ltb_spec (Z.of_nat (length (rows_at i))) (Z.of_nat pos + 1)) as [Lt|Ge].
  - assert (pos = length (rows_at i)) by lia. cbn [tl].
    assert (RE0 : rest_of (i :: c) pos = flat_map rows_at c) by (cbn [rest_of]; rewrite skipn_all2 by lia; reflexivity).
    destruct c as [|j c].
    + rewrite Hpast. cbn [bind]. eexists. split; [reflexivity|]. left. split; [reflexivity|]. rewrite RE0. constructor.
    + inversion Fr as [|? ? Fj Fr']; subst. pose proof (FEW j Fj) as (FJ & NJ).
      assert (Fj' := Fj). destruct Fj' as (g & n & Eg & En & Hn & Ne).
      assert (RA : rows_at j = grows g) by (unfold rows_at; now rewrite Eg).
      rewrite En. cbn [bind]. rewrite (u32_reg (r_cnt (n_b Hn))) by (rewrite <- RA; lia). cbn [bind].
      replace (w16 (Z.of_nat (length (grows g)))) with (Z.of_nat (length (rows_at j))) by (rewrite RA in *; unfold w16; symmetry; apply Z.mod_small; lia).
      destruct (ROW (j :: c) 0%nat) as (it & E & C); auto; try discriminate.
      * cbn [hd]. destruct (rows_at j); [congruence|cbn; lia].
      * exists it. split; [exact E|exact C].
  - cbn [bind]. replace (Z.of_nat pos + 1) with (Z.of_nat (S pos)) by lia.
    destruct (ROW (i :: c) pos) as (it & E & C); auto; [cbn [hd]; lia|]. exists it. split; [exact E|exact C].
Qed.

Lemma it_collect_spec : past P = true -> forall n c pos tp f, Forall full_node c -> c <> [] ->
  nth_error (rows_at (hd 0%nat c)) pos = Some tp -> sat tp -> (length (rest_of c (S pos)) < n)%nat -> (n < f)%nat ->
  exists l rest, it_collect P f t ps (c, Z.of_nat (length (rows_at (hd 0%nat c))), Z.of_nat (S pos)) = Ok (tp :: l) /\
    Permutation (rest_of c (S pos)) (l ++ rest) /\ Forall sat l /\ Forall (fun tp => ~ sat tp) rest.
Proof.
  intros Hpast. induction n as [|n IH]; intros c pos tp f Fc Nc Et Hs Hn Hf; [lia|].
  destruct f as [|f]; [lia|]. assert (Lp : (pos < length (rows_at (hd 0%nat c)))%nat) by (apply nth_error_Some; congruence).
  cbn [it_collect]. replace (at_end (c, Z.of_nat (length (rows_at (hd 0%nat c))), Z.of_nat (S pos))) with false.
  2: { symmetry. unfold at_end. apply andb_false_iff. right. apply Z.eqb_neq. lia. }
  destruct (it_next_spec Hpast (f := f) Fc Nc (pos := S pos)) as (it & E & C); [lia|lia|].
  destruct c as [|i c]; [congruence|]. cbn [hd] in *. inversion Fc as [|? ? Fi Fr]; subst. destruct Fi as (g & nd & Eg & En & Hnd & Ne).
  assert (RA : rows_at i = grows g) by (unfold rows_at; now rewrite Eg).
  unfold it_row. cbn [hd_error of_opt bind]. rewrite En. cbn [bind].
  replace (Z.of_nat (S pos) - 1) with (Z.of_nat pos) by lia. rewrite RA in *.
  rewrite (row_offsets_spec (n_b Hnd) (lay HP) Lp). cbn [bind fst snd].
  rewrite (create_tuple_spec (n_b Hnd) (lay HP) Et). cbn [bind]. rewrite E. cbn [bind].
  destruct C as [(-> & C)|(c' & p' & R1 & tp' & -> & C2 & C3 & C4 & C5 & C6 & C7)].
  - destruct f as [|f]; [lia|]. cbn [it_collect]. exists [], (rest_of (i :: c) (S pos)).
    replace (at_end ([], 0, 1)) with true by reflexivity. cbn [bind]. splits; auto.
  - rewrite C7, app_length in Hn. cbn [length] in Hn.
    destruct (IH c' p' tp' f) as (l & rest & E' & Pm & S1 & S2); auto; [lia|lia|].
    rewrite E'. cbn [bind]. exists (tp' :: l), (R1 ++ rest). splits; auto.
    + rewrite C7, Pm. cbn [app]. rewrite <- Permutation_middle. apply perm_skip. apply Permutation_app_swap_app.
    + apply Forall_app. auto.
Qed.

Lemma range_scan_spec : past P = true -> Forall full_node (chain t) -> exists F0 l rest,
  (forall f, (F0 <= f)%nat -> range_scan P f t ps = Ok l) /\
  Permutation (flat_map rows_at (chain t)) (l ++ rest) /\ Forall sat l /\ Forall (fun tp => ~ sat tp) rest.
Proof.
  intros Hpast Fc. destruct (candidates_ok Fc) as (c & rest0 & Ec & Fl & Pl & S0).
  set (N := S (S (length (flat_map rows_at c)))).
  assert (SC : forall f, (N <= f)%nat -> exists l rest, range_scan P f t ps = Ok l /\
     Permutation (flat_map rows_at c) (l ++ rest) /\ Forall sat l /\ Forall (fun tp => ~ sat tp) rest).
  { intros f Hf. unfold range_scan, it_begin. rewrite Ec. cbn [bind]. destruct c as [|i c].
    - cbn [bind]. destruct f as [|f]; [lia|]. exists [], []. cbn. splits; auto.
    - assert (Fi := Forall_inv Fl). destruct Fi as (g & n & Eg & En & Hn & Ne).
      assert (RA : rows_at i = grows g) by (unfold rows_at; now rewrite Eg). pose proof (few_rows HP Hn) as FR.
      rewrite En. cbn [bind]. rewrite (u32_reg (r_cnt (n_b Hn))) by lia. cbn [bind].
      replace (w16 (Z.of_nat (length (grows g)))) with (Z.of_nat (length (rows_at (hd 0%nat (i :: c))))) by (cbn [hd]; rewrite RA; unfold w16; symmetry; apply Z.mod_small; lia).
      change 0 with (Z.of_nat 0) at 1.
      assert (R0 : rest_of (i :: c) 0 = flat_map rows_at (i :: c)) by reflexivity.
      destruct (it_next_spec Hpast (f := f) Fl (pos := 0%nat)) as (it & E & C); [discriminate|lia|rewrite R0; lia|].
      rewrite E. cbn [bind]. rewrite R0 in C.
      destruct C as [(-> & C)|(c' & p' & R1 & tp' & -> & C2 & C3 & C4 & C5 & C6 & C7)].
      + destruct f as [|f]; [lia|]. exists [], (flat_map rows_at (i :: c)). cbn [it_collect]. splits; auto.
      + destruct (it_collect_spec Hpast (n := length (flat_map rows_at (i :: c))) (f := f) C2 C3 C4 C5) as (l & rest & E' & Pm & S1 & S2); [|lia|].
        { rewrite C7, app_length. cbn [length]. lia. }
        rewrite E'. exists (tp' :: l), (R1 ++ rest). splits; auto.
        * rewrite C7, Pm. cbn [app]. rewrite <- Permutation_middle. apply perm_skip. apply Permutation_app_swap_app.
        * apply Forall_app. auto. }
  destruct (SC N) as (l & rest & E & Pm & S1 & S2); [lia|]. exists N, l, (rest ++ rest0).
  splits; auto.
  - assert (MONO1 : forall f f' it r, it_next P f t ps it = r -> r <> NoFuel -> (f <= f')%nat -> it_next P f' t ps it = r).
    { clear. induction f as [|f IH]; intros f' it r E N L; [cbn in E; congruence|]. destruct f' as [|f']; [lia|].
      destruct it as ((c, cnt), pos). cbn [it_next] in *.
      match goal with |- context [bind ?X] => destruct X as [(it1, ended)| |]; cbn [bind] in *; [|exact E|exact E] end.
      destruct ended; [exact E|]. destruct (it_row P t it1) as [r0| |]; cbn [bind] in *; [|exact E|exact E].
      destruct (in_range (dlt P) cs (blk (fst r0)) (snd r0) ps) as [ok| |]; cbn [bind] in *; [|exact E|exact E].
      destruct ok; [exact E|]. apply IH; auto. lia. }
    assert (MONO2 : forall f f' it r, it_collect P f t ps it = r -> r <> NoFuel -> (f <= f')%nat -> it_collect P f' t ps it = r).
    { clear - MONO1. induction f as [|f IH]; intros f' it r E N L; [cbn in E; congruence|]. destruct f' as [|f']; [lia|].
      cbn [it_collect] in *. destruct (at_end it); [exact E|].
      destruct (it_row P t it) as [r0| |]; cbn [bind] in *; [|exact E|exact E].
      destruct (create_tuple (blk (fst r0)) cs (snd r0)) as [tp| |]; cbn [bind] in *; [|exact E|exact E].
      destruct (it_next P f t ps it) as [it'| |] eqn:En; cbn [bind] in E; [| |congruence].
      - rewrite (MONO1 _ f' _ _ En) by (try discriminate; lia). cbn [bind].
        destruct (it_collect P f t ps it') as [l| |] eqn:El; cbn [bind] in E; [| |congruence].
        + rewrite (IH f' _ _ El) by (try discriminate; lia). exact E.
        + rewrite (IH f' _ _ El) by (try discriminate; lia). exact E.
      - rewrite (MONO1 _ f' _ _ En) by (try discriminate; lia). exact E. }
    intros f Hf. unfold range_scan, it_begin in *.
    destruct (candidates P t (chain t) ps) as [c0| |]; cbn [bind] in *; [|exact E|exact E].
    destruct c0 as [|i0 c0]; cbn [bind] in *; [eapply MONO2; eauto; discriminate|].
    destruct (node_at t i0) as [n| |]; cbn [bind] in *; [|exact E|exact E].
    destruct (u32 (blk n) count_pos) as [k| |]; cbn [bind] in *; [|exact E|exact E].
    destruct (it_next P N t ps (i0 :: c0, w16 k, 0)) as [it| |] eqn:En; cbn [bind] in E; try discriminate.
    rewrite (MONO1 _ f _ _ En) by (try discriminate; lia). cbn [bind]. eapply MONO2; eauto; discriminate.
  - rewrite Pl, Pm, <- app_assoc. reflexivity.
  - apply Forall_app. auto.
Qed.
End At.
End Scan.
