(** The skip list theorems in terms of the abstract map. *)
From Verif Require Import Base MapSpec SortedList SkipModel SkipSpec SkipProofs RandomModel RandomProofs.
Open Scope nat_scope.

Section Main.
Variables (V : Type) (maxl : nat) (minkey : Z) (v0 : V).

Lemma m_put_ext (m m' : amap V) k v : (forall x, m x = m' x) -> forall x, m_put m k v x = m_put m' k v x.
Proof. intros H x. unfold m_put. now rewrite H. Qed.

Lemma may_leave_ext os : forall (m m' f f' : amap V), (forall k, m k = m' k) -> (forall k, f k = f' k) -> may_leave m os f -> may_leave m' os f'.
Proof.
  induction os as [|[k v r|k v r n] os IH]; intros m m' f f' H F L; cbn [may_leave] in *.
  - intros k. now rewrite <- F, L, H.
  - apply (IH (m_put m k v) (m_put m' k v) f f'); auto using m_put_ext.
  - destruct L as [L|L]; [left; now apply (IH m m' f f')|right; apply (IH (m_put m k v) (m_put m' k v) f f'); auto using m_put_ext].
Qed.

Lemma leaves_spec os : forall es es' (m : amap V), sorted es -> leaves es os es' -> (forall k, get k es = m k) -> may_leave m os (fun k => get k es').
Proof.
  induction os as [|[k v r|k v r n] os IH]; intros es es' m S L H; cbn [may_leave leaves] in *.
  - subst. intros k. apply H.
  - apply IH with (ins k v es); auto using sorted_ins. intros x. rewrite get_ins by assumption. unfold m_put. now rewrite H.
  - destruct L as [L|L]; [left; now apply IH with es|right]. apply IH with (ins k v es); auto using sorted_ins.
    intros x. rewrite get_ins by assumption. unfold m_put. now rewrite H.
Qed.

Theorem skip_history os : 2 <= maxl -> Forall (fun o => op_rnd o < maxl) os -> Forall (fun o => op_key o <> minkey) os ->
  exists s m, s_run maxl (s_new maxl minkey v0) os = Ok s /\ may_leave (@m_empty V) os m /\ forall k, search s k = Ok (m k).
Proof.
  intros HM F K. assert (I0 : inv maxl minkey (s_new maxl minkey v0) [] [] (fun _ => 0)) by (apply inv_new_list; lia).
  destruct (@run_ok V maxl minkey os HM _ _ _ _ I0 F (fun _ => K)) as (s & ids & es & lv & E & H & L).
  exists s, (fun k => get k es). splits; auto.
  - apply (@leaves_spec os [] es); auto. constructor.
  - intros k. now apply (search_ok k H).
Qed.

(** The next operation after any such history. *)
Theorem skip_next os s : 2 <= maxl -> Forall (fun o => op_rnd o < maxl) os -> Forall (fun o => op_key o <> minkey) os ->
  s_run maxl (s_new maxl minkey v0) os = Ok s -> forall k v r, r < maxl -> k <> minkey ->
  (exists s' b, insert maxl s k v r = Ok (s', b) /\ (b = true <-> search s k = Ok None)) /\
  forall n, exists s', s_step maxl s (SCrash k v r n) = Ok s' /\
    ((forall x, search s' x = search s x) \/ (forall x, search s' x = if (x =? k)%Z then Ok (Some v) else search s x)).
Proof.
  intros HM F K E k v r Hr Hk. assert (I0 : inv maxl minkey (s_new maxl minkey v0) [] [] (fun _ => 0)) by (apply inv_new_list; lia).
  destruct (@run_ok V maxl minkey os HM _ _ _ _ I0 F (fun _ => K)) as (s1 & ids & es & lv & E1 & H & L).
  rewrite E in E1. injection E1 as <-. split.
  - destruct (@insert_ret V maxl minkey s ids es lv k v r H HM Hr (fun _ => Hk)) as (s' & b & E' & Hb). exists s', b. split; [assumption|].
    rewrite (search_ok k H). rewrite Hb. split; congruence.
  - intros n. destruct (@step_ok' V maxl minkey s ids es lv (SCrash k v r n) H HM Hr (fun _ => Hk)) as (s' & ids' & es' & lv' & E' & H' & D).
    exists s'. split; [assumption|]. destruct D as [->| ->]; [left|right]; intros x; rewrite (search_ok x H), (search_ok x H'); [reflexivity|].
    rewrite get_ins by exact (i_sorted H). destruct (x =? k)%Z; reflexivity.
Qed.

Lemma puts_snoc os (o : Z * V * nat) x : puts (os ++ [o]) x = m_put (puts os) (fst (fst o)) (snd (fst o)) x.
Proof. unfold puts, m_run. rewrite map_app, fold_left_app. reflexivity. Qed.

Lemma fold_ext l : forall (f g : amap V), (forall x, f x = g x) -> forall x, fold_left (@m_step V) l f x = fold_left (@m_step V) l g x.
Proof.
  induction l as [|o l IH]; intros f g H x; cbn; [apply H|]. apply IH. intros y. destruct o; cbn; unfold m_put, m_del; destruct (y =? k)%Z; auto.
Qed.

Lemma leaves_puts os : forall (es es' : list (Z * V)), leaves es (map (@put_op V) os) es' -> sorted es ->
  forall x, get x es' = fold_left (@m_step V) (map (fun o => OpInsert (fst (fst o)) (snd (fst o))) os) (fun k => get k es) x.
Proof.
  induction os as [|[[k v] r] os IH]; intros es es' L S x; cbn in L |- *; [now subst|].
  rewrite (IH (ins k v es) es' L) by auto using sorted_ins. apply fold_ext. intros y. now rewrite get_ins by assumption.
Qed.

Lemma skip_puts os : 2 <= maxl -> Forall (fun o => snd o < maxl) os ->
  (forall k v r os', os = (k, v, r) :: os' -> k <> minkey) ->
  exists s ids es lv, s_run maxl (s_new maxl minkey v0) (map (@put_op V) os) = Ok s /\ inv maxl minkey s ids es lv /\
    (forall x, get x es = puts os x) /\ scount s = length es.
Proof.
  intros HM F K. assert (I0 : inv maxl minkey (s_new maxl minkey v0) [] [] (fun _ => 0)) by (apply inv_new_list; lia).
  destruct os as [|[[k v] r] os].
  - exists (s_new maxl minkey v0), [], [], (fun _ => 0). splits; auto.
  - specialize (K k v r os eq_refl). inversion F as [|? ? F1 F2]; subst. cbn [map s_run fst snd] in *. change (put_op (k, v, r)) with (SIns k v r).
    destruct (@step_ok' V maxl minkey _ _ _ _ (SIns k v r) I0 HM F1 (fun _ => K)) as (s1 & ids1 & es1 & lv1 & E1 & H1 & -> & C1).
    rewrite E1. cbn [bind]. cbn in C1.
    assert (F2' : Forall (fun o => sop_rnd o < maxl) (map (@put_op V) os)).
    { apply Forall_map. eapply Forall_impl; [|exact F2]. intros [[? ?] ?]. cbn. auto. }
    destruct (@run_ok V maxl minkey _ HM _ _ _ _ H1 F2') as (s & ids & es & lv & E & H & L); [discriminate|].
    destruct (@run_count V maxl minkey (map (@put_op V) os) HM _ _ _ _ H1) as (s' & ids' & es' & lv' & E' & H' & C'); auto; [discriminate| |].
    { apply Forall_map. apply Forall_forall. intros [[? ?] ?] _. exact I. }
    rewrite E in E'. injection E' as <-. exists s, ids, es, lv. splits; auto.
    + intros x. rewrite (leaves_puts L (i_sorted H1)). unfold puts, m_run. cbn [map fold_left m_step fst snd].
      apply fold_ext. intros y. cbn [ins get]. unfold m_put. now rewrite Z.eqb_sym.
    + rewrite C'. pose proof (i_ent H) as M. pose proof (i_ent H') as M'.
      destruct (print_ok H) as (rows & P & _ & _ & _ & R). destruct (print_ok H') as (rows' & P' & _ & _ & _ & R').
      rewrite P in P'. injection P' as <-. rewrite R in R'. now injection R' as <-.
Qed.

Theorem skip_map os : 2 <= maxl -> Forall (fun o => snd o < maxl) os ->
  (forall k v r os', os = (k, v, r) :: os' -> k <> minkey) ->
  exists s, s_run maxl (s_new maxl minkey v0) (map (@put_op V) os) = Ok s /\ (forall k, search s k = Ok (puts os k)) /\
    forall k v r, r < maxl -> (os = [] -> k <> minkey) -> exists s' b, insert maxl s k v r = Ok (s', b) /\ (b = true <-> puts os k = None).
Proof.
  intros HM F K. destruct (skip_puts HM F K) as (s & ids & es & lv & E & H & G & C). exists s. splits; auto.
  - intros k. rewrite (search_ok k H). now rewrite G.
  - intros k v r Hr Hk. destruct (@insert_ret V maxl minkey s ids es lv k v r H HM Hr) as (s' & b & E' & Hb).
    + intros ->. apply Hk. destruct os as [|[[k1 v1] r1] os]; [reflexivity|]. exfalso.
      assert (X : forall l m, m k1 <> None -> fold_left (@m_step V) (map (fun o : Z * V * nat => OpInsert (fst (fst o)) (snd (fst o))) l) m k1 <> None).
      { clear. induction l as [|[[k v] r] l IH]; intros m H; [exact H|]. cbn. apply IH. unfold m_put. destruct (k1 =? k)%Z; [discriminate|exact H]. }
      apply (X os (m_put (@m_empty V) k1 v1)); [unfold m_put; rewrite Z.eqb_refl; discriminate|]. symmetry. exact (G k1).
    + exists s', b. split; [assumption|]. now rewrite Hb, G.
Qed.

Theorem skip_print os : 2 <= maxl -> Forall (fun o => snd o < maxl) os ->
  (forall k v r os', os = (k, v, r) :: os' -> k <> minkey) ->
  exists s rows bottom, s_run maxl (s_new maxl minkey v0) (map (@put_op V) os) = Ok s /\
    print_list s = Ok (length bottom, rows) /\ last rows [] = bottom /\ lists (puts os) bottom /\
    (forall r, In r rows -> StronglySorted Z.lt (map fst r)) /\
    (forall i a b, nth_error rows i = Some a -> nth_error rows (S i) = Some b -> incl a b).
Proof.
  intros HM F K. destruct (skip_puts HM F K) as (s & ids & es & lv & E & H & G & C).
  destruct (print_ok H) as (rows & P & L & S & I & B). exists s, rows, es. rewrite C in P. splits; auto.
  - apply nth_error_split in B as (a & b & -> & La). rewrite app_length in L. cbn in L. destruct b; [|cbn in L; lia].
    now rewrite last_app_cons.
  - destruct (sorted_lists (i_sorted H)) as [S1 S2]. split; [exact S1|]. intros k v. now rewrite S2, G.
Qed.

Theorem skip_seeded seed l : 2 <= maxl -> (Z.of_nat maxl < 2 ^ 31)%Z -> Forall (fun e => fst e <> minkey) l ->
  exists s, seeded maxl (rnd_new seed) (s_new maxl minkey v0) l = Ok s /\
    forall k, search s k = Ok (m_run (map (fun e => OpInsert (fst e) (snd e)) l) k).
Proof.
  intros HM HM' F.
  assert (G : forall l seed s ids es lv, (1 <= seed < rnd_M)%Z -> inv maxl minkey s ids es lv -> Forall (fun e => fst e <> minkey) l ->
    exists s' ids' es' lv', seeded maxl seed s l = Ok s' /\ inv maxl minkey s' ids' es' lv' /\
      forall k, get k es' = fold_left (@m_step V) (map (fun e => OpInsert (fst e) (snd e)) l) (fun k => get k es) k).
  { clear l F seed. induction l as [|[k v] l IH]; intros seed s ids es lv Hs H F; cbn [seeded].
    - exists s, ids, es, lv. splits; auto.
    - inversion F as [|? ? F1 F2]; subst. cbn [fst] in F1.
      destruct (@rnd_uniform_spec seed (Z.of_nat maxl) Hs) as (seed' & x & Ex & Hs' & Hx & _); [lia|]. rewrite Ex. cbn [bind fst snd].
      assert (Hr : Z.to_nat x < maxl) by lia.
      destruct (@insert_ret V maxl minkey s ids es lv k v (Z.to_nat x) H HM Hr (fun _ => F1)) as (s1 & b & E1 & _).
      destruct (@step_ok' V maxl minkey s ids es lv (SIns k v (Z.to_nat x)) H HM Hr (fun _ => F1)) as (s1' & ids1 & es1 & lv1 & E1' & H1 & -> & _).
      cbn [s_step] in E1'. rewrite E1 in E1' |- *. cbn [bind fst snd] in E1' |- *. injection E1' as <-.
      destruct (IH (if b then seed' else seed) s1 ids1 (ins k v es) lv1) as (s' & ids' & es' & lv' & E & H' & G); auto; [now destruct b|].
      exists s', ids', es', lv'. splits; auto. intros y. rewrite G. cbn [map fold_left m_step fst snd].
      apply fold_ext. intros z. rewrite get_ins by exact (i_sorted H). reflexivity. }
  assert (I0 : inv maxl minkey (s_new maxl minkey v0) [] [] (fun _ => 0)) by (apply inv_new_list; lia).
  destruct (G l (rnd_new seed) _ _ _ _ (rnd_new_range seed) I0 F) as (s & ids & es & lv & E & H & X).
  exists s. split; [assumption|]. intros k. rewrite (search_ok k H), X. reflexivity.
Qed.
End Main.
