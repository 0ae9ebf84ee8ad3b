(** Inserting and looking up in the trie of [PatModel]. *)
From Verif Require Import Base TrieSpec PatModel PatSpec PatBits.
Open Scope nat_scope.

Definition pre {A} (p l : list A) : Prop := exists s, l = p ++ s.
Lemma pre_refl {A} (l : list A) : pre l l.
Proof. exists []. now rewrite app_nil_r. Qed.
Lemma pre_trans {A} (a b c : list A) : pre a b -> pre b c -> pre a c.
Proof. intros (s & ->) (u & ->). exists (s ++ u). now rewrite app_assoc. Qed.
Lemma pre_len {A} (a b : list A) : pre a b -> length a <= length b.
Proof. intros (s & ->). rewrite app_length. lia. Qed.
Lemma pre_firstn {A} n (l : list A) : pre (firstn n l) l.
Proof. exists (skipn n l). now rewrite firstn_skipn. Qed.
Lemma pre_of_firstn {A} (p l : list A) : pre p l <-> firstn (length p) l = p.
Proof. split; [intros (s & ->); rewrite firstn_app, Nat.sub_diag, firstn_all; cbn; apply app_nil_r|intros <-; apply pre_firstn]. Qed.
Lemma pre_nth {A} (p l : list A) i : pre p l -> i < length p -> nth_error l i = nth_error p i.
Proof. intros (s & ->) H. now apply nth_error_app1. Qed.
Lemma pre_snoc {A} (p l : list A) x : pre (p ++ [x]) l <-> pre p l /\ nth_error l (length p) = Some x.
Proof.
  split.
  - intros (s & ->). rewrite <- app_assoc. split; [now exists ([x] ++ s)|]. rewrite nth_error_app2 by lia. now rewrite Nat.sub_diag.
  - intros ((s & ->) & E). rewrite nth_error_app2, Nat.sub_diag in E by lia. destruct s as [|y s]; [discriminate|]. injection E as ->. exists s. now rewrite <- app_assoc.
Qed.
Lemma pre_firstn_le {A} n (p l : list A) : pre p l -> length p <= n -> pre p (firstn n l).
Proof. intros (s & ->) H. exists (firstn (n - length p) s). rewrite firstn_app, firstn_all2 by lia. reflexivity. Qed.
Lemma pre_both {A} (a b l : list A) : pre a l -> pre b l -> length a <= length b -> pre a b.
Proof. intros HA HB L. apply pre_of_firstn in HA. destruct HB as (s & ->). rewrite firstn_app in HA. replace (length a - length b) with 0 in HA by lia. cbn in HA. rewrite app_nil_r in HA. rewrite <- HA at 1. apply pre_firstn. Qed.
Lemma pre_eq {A} (a b : list A) : pre a b -> length b <= length a -> a = b.
Proof. intros (s & ->) H. rewrite app_length in H. destruct s; [now rewrite app_nil_r|cbn in H; lia]. Qed.
Lemma nth_firstn {A} n (l : list A) i : i < n -> nth_error (firstn n l) i = nth_error l i.
Proof. revert n i. induction l as [|a l IH]; intros [|n] [|i] H; cbn; try lia; try reflexivity. apply IH. lia. Qed.

Section Pat.
Variables (V : Type) (truthy : V -> bool) (K : list (list Z)) (cap : nat).
Implicit Types (n c : pnode V) (x : list bool).

Definition kb n : list bool := firstn (pklen n) (bits (pkey n)).
Definition plink n (b : bool) : option (pnode V) := let '(PN _ _ _ _ l0 l1) := n in if b then l1 else l0.
Definition pdata n : option V := let '(PN _ _ d _ _ _) := n in d.

Inductive pwf : bool -> pnode V -> Prop :=
  PWF (r : bool) n :
    byte_key (pkey n) -> pklen n <= length (pkey n) -> pklen n <= 8 * cap ->
    (r = true -> pklen n = 0 /\ pdata n = None) -> (r = false -> 0 < pklen n) ->
    (forall v, pdata n = Some v -> truthy v = true /\ exists k, In k K /\ kb n = bits k) ->
    (r = false -> pdata n = None -> pklen n mod 8 <> 0 /\ (forall b, plink n b <> None)) ->
    (forall b c, plink n b = Some c -> pwf false c) ->
    (forall b c, plink n b = Some c -> pre (kb n ++ [b]) (kb c)) -> pwf r n.

Fixpoint pget n x : option V :=
  let '(PN k kl d a l0 l1) := n in
  if length x <? kl then None
  else if length x =? kl then (if list_eq_dec Bool.bool_dec x (firstn kl (bits k)) then d else None)
  else match nth_error x kl with
       | Some b => match (if b then l1 else l0) with Some c => pget c x | None => None end
       | None => None
       end.
Lemma pget_eq n x : pget n x =
  if length x <? pklen n then None
  else if length x =? pklen n then (if list_eq_dec Bool.bool_dec x (kb n) then pdata n else None)
  else match nth_error x (pklen n) with
       | Some b => match plink n b with Some c => pget c x | None => None end
       | None => None
       end.
Proof. destruct n as [k kl d a l0 l1]. reflexivity. Qed.

Lemma kb_len r n : pwf r n -> length (kb n) = pklen n.
Proof. intros [r0 n0 W1 W2 _ _ _ _ _ _ _]. unfold kb. rewrite firstn_length, bits_len. lia. Qed.

Lemma get_pre r n : pwf r n -> forall x v, pget n x = Some v -> pre (kb n) x.
Proof.
  intros W. pose proof (kb_len W) as KL. revert KL. induction W as [r n W1 W2 W3 W4 W5 W6 W7 W8 IH W9]. intros KL x v. rewrite pget_eq.
  destruct (Nat.ltb_spec (length x) (pklen n)) as [|H]; [discriminate|]. destruct (Nat.eqb_spec (length x) (pklen n)) as [E|E].
  - destruct (list_eq_dec Bool.bool_dec x (kb n)) as [->|]; [|discriminate]. intros _. apply pre_refl.
  - destruct (nth_error x (pklen n)) as [b|]; [|discriminate]. destruct (plink n b) as [c|] eqn:EC; [|discriminate]. intros G.
    specialize (IH b c EC (kb_len (W8 b c EC)) x v G). eapply pre_trans; [|eapply pre_trans; [apply (W9 b c EC)|exact IH]]. now exists [b].
Qed.
Lemma get_none r n x : pwf r n -> ~ pre (kb n) x -> pget n x = None.
Proof. intros W H. destruct (pget n x) as [v|] eqn:E; [|reflexivity]. destruct H. apply (get_pre W E). Qed.

(** Below every node is a stored key *)
Lemma below r n : pwf r n -> r = false -> exists k, In k K /\ pre (kb n) (bits k).
Proof.
  intros W. induction W as [r n W1 W2 W3 W4 W5 W6 W7 W8 IH W9]. intros ->. destruct (pdata n) as [v|] eqn:ED.
  - destruct (W6 v eq_refl) as (_ & k & I & E). exists k. rewrite E. split; [exact I|apply pre_refl].
  - destruct (W7 eq_refl eq_refl) as (_ & L). destruct (plink n true) as [c|] eqn:EC; [|now destruct (L true)].
    destruct (IH true c EC eq_refl) as (k & I & P). exists k. split; [exact I|]. eapply pre_trans; [|eapply pre_trans; [apply (W9 true c EC)|exact P]]. now exists [true].
Qed.

(** ** lookup *)
Lemma arg_bits (buf : list Z) (len : nat) : bits (arg_key buf len) = firstn (8 * len) (bits buf).
Proof. apply bits_firstn. Qed.
Lemma byte_firstn (i : nat) k : byte_key k -> byte_key (firstn i k).
Proof. intros H. apply Forall_forall. intros z Hz. apply (proj1 (Forall_forall _ _) H). apply (incl_firstn_in Hz). Qed.

Lemma find_ok r n : pwf r n -> forall (buf : list Z) (len : nat), byte_key buf -> 1 <= len -> len <= length buf ->
  p_find n buf (8 * len) = Ok (option_map Some (pget n (bits (arg_key buf len)))).
Proof.
  intros W. induction W as [r n W1 W2 W3 W4 W5 W6 W7 W8 IH W9]. intros buf len BB L1 L2. rewrite pget_eq, arg_bits.
  assert (LX : length (firstn (8 * len) (bits buf)) = 8 * len) by (rewrite firstn_length, bits_len; lia). rewrite LX.
  destruct n as [k kl d a l0 l1]. cbn [p_find pkey pklen pdata plink] in *. unfold kb in *. cbn [pkey pklen] in *.
  destruct (Nat.leb_spec kl (8 * len)) as [H1|H1].
  2:{ destruct (Nat.ltb_spec (8 * len) kl); [reflexivity|lia]. }
  destruct (Nat.ltb_spec (8 * len) kl) as [H2|_]; [lia|]. rewrite Nat.eqb_sym. destruct (Nat.eqb_spec (8 * len) kl) as [E|E].
  - destruct (@match_key_ok k buf kl W1 BB) as (m & -> & Hm); [lia|lia|]. cbn [bind]. rewrite E. destruct (list_eq_dec Bool.bool_dec (firstn kl (bits buf)) (firstn kl (bits k))) as [Q|Q].
    + replace m with true by (symmetry; apply Hm; congruence). destruct d as [v|]; [reflexivity|]. exfalso. destruct r.
      * destruct (W4 eq_refl). lia.
      * destruct (W7 eq_refl eq_refl) as (X & _). apply X. subst kl. rewrite Nat.mul_comm. apply Nat.mod_mul. lia.
    + replace m with false by (destruct m; [exfalso; apply Q; symmetry; now apply Hm|reflexivity]). rewrite Nat.leb_refl. reflexivity.
  - cbn [bind]. destruct (Nat.leb_spec (8 * len) kl) as [H3|_]; [lia|]. rewrite check_bit_ok by assumption. rewrite nth_firstn by lia.
    destruct (nth_error (bits buf) kl) as [b|] eqn:EN; [|apply nth_error_None in EN; rewrite bits_len in EN; lia]. cbn [of_opt bind].
    destruct (if b then l1 else l0) as [c|] eqn:EC; [|reflexivity]. rewrite (IH b c EC buf len BB L1 L2), arg_bits. reflexivity.
Qed.

(** ** set_child *)
Lemma set_link_get n b o x : pget (set_link n b o) x =
  if length x <? pklen n then None
  else if length x =? pklen n then (if list_eq_dec Bool.bool_dec x (kb n) then pdata n else None)
  else match nth_error x (pklen n) with
       | Some b' => match (if Bool.eqb b' b then o else plink n b') with Some c => pget c x | None => None end
       | None => None
       end.
Proof. rewrite pget_eq. destruct n as [k kl d a l0 l1], b; cbn [set_link pklen pdata plink]; (destruct (_ <? _); [reflexivity|]); (destruct (_ =? _); [reflexivity|]); (destruct (nth_error x kl) as [[]|]; reflexivity). Qed.
Lemma set_link_eq n b o : pkey (set_link n b o) = pkey n /\ pklen (set_link n b o) = pklen n /\ pdata (set_link n b o) = pdata n /\
  (forall b', plink (set_link n b o) b' = if Bool.eqb b' b then o else plink n b') /\ kb (set_link n b o) = kb n.
Proof. destruct n as [k kl d a l0 l1], b; cbn; splits; try reflexivity; intros []; reflexivity. Qed.

Lemma set_child_ok r n c b : pwf false c -> length (kb n) = pklen n -> pre (kb n ++ [b]) (kb c) -> pwf r n \/ True -> set_child n c = Ok (set_link n b (Some c)).
Proof.
  intros Wc L P _. unfold set_child. inversion Wc as [r0 n0 C1 C2 _ _ _ _ _ _ _]; subst. rewrite check_bit_ok by assumption.
  apply pre_snoc in P as (_ & P). rewrite L in P. unfold kb in P.
  assert (pklen n < pklen c).
  { assert (nth_error (firstn (pklen c) (bits (pkey c))) (pklen n) <> None) as X by congruence. apply nth_error_Some in X. rewrite firstn_length in X. lia. }
  rewrite nth_firstn in P by lia. rewrite P. reflexivity.
Qed.

Lemma wf_link r n b c : pwf r n -> pwf false c -> pre (kb n ++ [b]) (kb c) -> pwf r (set_link n b (Some c)).
Proof.
  intros W Wc P. inversion W as [r0 n0 W1 W2 W3 W4 W5 W6 W7 W8 W9]; subst. destruct (set_link_eq n b (Some c)) as (E1 & E2 & E3 & E4 & E5).
  constructor; rewrite ?E1, ?E2, ?E3, ?E5; auto.
  - intros Hr Hd. destruct (W7 Hr Hd) as (X & Y). split; [exact X|]. intros b'. rewrite E4. destruct (Bool.eqb b' b); [discriminate|apply Y].
  - intros b' d. rewrite E4. destruct (Bool.eqb b' b); [intros [= <-]; exact Wc|apply W8].
  - intros b' d. rewrite E4. destruct (Bool.eqb b' b) eqn:EB; [intros [= <-]; apply eqb_prop in EB; subst; exact P|apply W9].
Qed.

(** ** insert *)
Definition xput (m : list bool -> option V) x v : list bool -> option V := fun y => if list_eq_dec Bool.bool_dec y x then Some v else m y.

Section Ins.
Variable room : nat -> nat.
Hypothesis HR : forall i, 8 * i <= room i.
Hypothesis HK : top_ok K.
Hypothesis HB : Forall byte_key K.
Variables (buf : list Z) (len : nat) (v : V).
Hypothesis BB : byte_key buf.
Hypothesis L1 : 1 <= len <= cap.
Hypothesis L2 : 8 * cap <= length buf.
Hypothesis IK : In (arg_key buf len) K.
Hypothesis TV : truthy v = true.
Let al := 8 * len.
Let bs := bits (arg_key buf len).
Let t := PN (firstn al buf) al (Some v) false None None.

Lemma bs_len : length bs = al.
Proof. subst bs al. rewrite arg_bits, firstn_length, bits_len. lia. Qed.
Lemma bs_firstn i : i <= al -> firstn i bs = firstn i (bits buf).
Proof. intros H. subst bs. rewrite arg_bits, firstn_firstn. f_equal. subst al. lia. Qed.
Lemma bs_nth i : i < al -> nth_error bs i = nth_error (bits buf) i.
Proof. intros H. subst bs. rewrite arg_bits. now apply nth_firstn. Qed.
Lemma t_kb : kb t = bs.
Proof. unfold kb. subst t. cbn [pklen pkey]. rewrite bits_firstn, firstn_firstn. subst bs. rewrite arg_bits. f_equal. subst al. lia. Qed.
Lemma t_wf : pwf false t.
Proof.
  constructor; rewrite ?t_kb; subst t; cbn [pkey pklen pdata plink].
  - now apply byte_firstn.
  - rewrite firstn_length. subst al. lia.
  - subst al. lia.
  - discriminate.
  - subst al. lia.
  - intros w [= <-]. split; [exact TV|]. exists (arg_key buf len). auto.
  - discriminate.
  - intros [] c; discriminate.
  - intros [] c; discriminate.
Qed.
Lemma t_get x : pget t x = if list_eq_dec Bool.bool_dec x bs then Some v else None.
Proof.
  rewrite pget_eq, t_kb. subst t. cbn [pklen pdata plink]. destruct (list_eq_dec Bool.bool_dec x bs) as [->|N].
  - rewrite bs_len. rewrite Nat.ltb_irrefl, Nat.eqb_refl. reflexivity.
  - destruct (length x <? al); [reflexivity|]. destruct (length x =? al); [reflexivity|]. destruct (nth_error x al) as [[]|]; reflexivity.
Qed.
Lemma new_t : new_node V room buf al = Ok (PN (firstn al buf) al None false None None).
Proof.
  unfold new_node. destruct (Nat.eqb_spec al 0) as [E|_]; [subst al; lia|].
  replace (al <=? length buf) with true by (symmetry; apply Nat.leb_le; subst al; lia).
  replace (al <=? room (octets al)) with true; [reflexivity|]. symmetry. apply Nat.leb_le. pose proof (HR (octets al)). unfold octets in *. lia.
Qed.

(** What an insert does to a subtree *)
Definition ins_ok r n n' (nw : bool) : Prop :=
  pwf r n' /\ (forall p, pre p (kb n) -> pre p bs -> pre p (kb n')) /\ (forall x, pget n' x = xput (pget n) bs v x) /\ (nw = true <-> pget n bs = None).

Lemma top_of k i : i < length (bits k) -> i mod 8 = 0 -> byte_key k -> exists b y, k = firstn (i / 8) k ++ b :: y /\ nth_error (bits k) i = Some (negb (b <? 128)%Z).
Proof.
  intros H1 H2 H3. rewrite bits_len in H1. destruct (nth_error k (i / 8)) as [b|] eqn:E; [|apply nth_error_None in E; lia].
  exists b, (skipn (S (i / 8)) k). split.
  - rewrite <- (firstn_skipn (i / 8) k) at 1. f_equal. clear -E. revert E. generalize (i / 8) as j. induction k as [|a k IH]; intros [|j] E; cbn in *; try discriminate; [congruence|]. now apply IH.
  - rewrite nth_bits, E, H2. assert (Rb : (0 <= b < 256)%Z) by (apply (proj1 (Forall_forall _ _) H3); eapply nth_error_In; eauto).
    pose proof (@for_bytes (fun b => match nth_error (bits8 b) 0 with Some x => Bool.eqb x (negb (b <? 128)%Z) | None => false end) eq_refl b Rb) as X. cbn beta in X.
    destruct (nth_error (bits8 b) 0); [|discriminate]. apply eqb_prop in X. congruence.
Qed.

Lemma no_byte_branch k i : In k K -> i < length (bits k) -> i < al -> 0 < i -> firstn i (bits k) = firstn i bs -> nth_error (bits k) i <> nth_error bs i -> i mod 8 <> 0.
Proof.
  intros I H1 H2 H0 E N M. assert (Bk : byte_key k) by (apply (proj1 (Forall_forall _ _) HB); exact I).
  assert (Ba : byte_key (arg_key buf len)) by now apply byte_firstn.
  destruct (top_of H1 M Bk) as (b & y & E1 & N1).
  destruct (@top_of (arg_key buf len) i) as (b' & y' & E2 & N2); [fold bs; rewrite bs_len; exact H2|exact M|exact Ba|]. fold bs in N2.
  assert (F : firstn (i / 8) k = firstn (i / 8) (arg_key buf len)).
  { apply bits_inj; [now apply byte_firstn|now apply byte_firstn|]. rewrite !bits_firstn. replace (8 * (i / 8)) with i by lia. exact E. }
  assert (X : (b <? 128)%Z = (b' <? 128)%Z).
  { apply (HK (p := firstn (i / 8) k) (x := y) (y := y')).
    - intros Q. apply (f_equal (@length Z)) in Q. rewrite firstn_length in Q. cbn [length] in Q. rewrite bits_len in H1. lia.
    - rewrite <- E1. exact I.
    - rewrite F, <- E2. exact IK. }
  apply N. rewrite N1, N2, X. reflexivity.
Qed.

Lemma ins_at_ok r n : pwf r n -> (r = false -> nth_error (kb n) 0 = nth_error bs 0) ->
  (pre (kb n) bs -> forall b, nth_error bs (pklen n) = Some b -> plink n b = None) ->
  exists n' nw, ins_at truthy room n buf al v = Ok (n', nw) /\ ins_ok r n n' nw.
Proof.
  intros W H0 HE. pose proof (kb_len W) as KL. pose proof W as W0. inversion W as [r0 n0 W1 W2 W3 W4 W5 W6 W7 W8 W9]; subst r0 n0.
  pose proof bs_len as BL. pose proof t_wf as TW. pose proof t_kb as TK.
  assert (AL : 0 < al /\ al <= 8 * length buf) by (subst al; lia).
  unfold ins_at. assert (exists m, (if pklen n =? al then match_key (pkey n) buf (pklen n) else Ok false) = Ok m /\ (m = true <-> kb n = bs)) as (m & -> & Hm).
  { destruct (Nat.eqb_spec (pklen n) al) as [E|E].
    - destruct (@match_key_ok (pkey n) buf (pklen n) W1 BB) as (m & Em & Hm); [lia|lia|]. exists m. split; [exact Em|]. rewrite Hm. unfold kb. rewrite <- (bs_firstn (i := pklen n)) by lia.
      rewrite (firstn_all2 (n := pklen n) bs) by lia. tauto.
    - exists false. split; [reflexivity|]. split; [discriminate|]. intros X. rewrite X in KL. lia. }
  cbn [bind]. destruct m.
  - (* overwrite *)
    assert (KE : kb n = bs) by now apply Hm. assert (KN : pklen n = al) by congruence.
    destruct r; [destruct (W4 eq_refl); lia|].
    destruct (pdata n) as [w|] eqn:ED.
    2:{ destruct (W7 eq_refl eq_refl) as (X & _). exfalso. apply X. rewrite KN. subst al. rewrite Nat.mul_comm. apply Nat.mod_mul. lia. }
    destruct (W6 w eq_refl) as (TW1 & k & I & EK).
    destruct n as [k0 kl d a l0 l1]. cbn [pdata] in ED. subst d. cbn [of_opt bind set_data]. rewrite TW1. cbn [negb].
    eexists _, _. split; [reflexivity|]. unfold ins_ok. unfold kb in *. cbn [pkey pklen] in *. splits.
    + constructor; unfold kb; cbn [pkey pklen pdata]; auto; try discriminate. intros u [= <-]. split; [exact TV|]. exists k. auto.
    + intros p H _. exact H.
    + intros x. unfold xput. rewrite !pget_eq. unfold kb. cbn [pkey pklen pdata plink]. destruct (list_eq_dec Bool.bool_dec x bs) as [->|N].
      * rewrite BL, KN, Nat.ltb_irrefl, Nat.eqb_refl. destruct (list_eq_dec Bool.bool_dec bs (firstn al (bits k0))) as [|Q]; [reflexivity|]. destruct Q. rewrite <- KN. auto.
      * destruct (length x <? kl); [reflexivity|]. destruct (length x =? kl); [|reflexivity]. destruct (list_eq_dec Bool.bool_dec x (firstn kl (bits k0))); [congruence|reflexivity].
    + rewrite pget_eq. unfold kb. cbn [pkey pklen pdata plink]. rewrite BL, KN, Nat.ltb_irrefl, Nat.eqb_refl. split; [discriminate|].
      destruct (list_eq_dec Bool.bool_dec bs (firstn al (bits k0))) as [|Q]; [discriminate|]. destruct Q. rewrite <- KN. auto.
  - (* a new node *)
    assert (KN : kb n <> bs) by (intros X; apply Hm in X; discriminate). clear Hm.
    rewrite new_t. cbn [bind set_data]. fold t.
    assert (exists br, branch_node room n t = Ok br /\ ins_ok r n br true) as (br & -> & OK).
    2:{ exists br, true. split; [reflexivity|exact OK]. }
    unfold branch_node. assert (PT : pkey t = firstn al buf /\ pklen t = al) by (subst t; auto). destruct PT as (PT1 & PT2). rewrite PT2.
    assert (BT : byte_key (pkey t)) by (rewrite PT1; now apply byte_firstn). assert (LT : length (pkey t) = al) by (rewrite PT1, firstn_length; subst al; lia).
    set (mn := Nat.min (pklen n) al).
    destruct (@same_bytes_ok (pkey n) (pkey t) (mn / 8) W1 BT 0) as (j & -> & J1 & J2); [subst mn; lia|subst mn; lia|reflexivity|]. cbn [bind].
    destruct (@same_bits_ok (pkey n) (pkey t) (mn - 8 * j) W1 BT (8 * j)) as (i & -> & I1 & I2 & I3); [subst mn; lia|subst mn; lia| |].
    { rewrite <- !bits_firstn. now rewrite J2. }
    cbn [bind]. replace (8 * j + (mn - 8 * j)) with mn in I1, I3 by (subst mn; lia).
    assert (F1 : firstn i (kb n) = firstn i bs).
    { unfold kb. rewrite <- TK. unfold kb. rewrite !firstn_firstn, PT2. replace (Nat.min i (pklen n)) with i by (subst mn; lia). replace (Nat.min i al) with i by (subst mn; lia). exact I2. }
    assert (F2 : i < mn -> nth_error (kb n) i <> nth_error bs i).
    { intros Hi. rewrite <- TK. unfold kb. rewrite PT2, !nth_firstn by (subst mn; lia). now apply I3. }
    assert (G0 : pget n bs = None).
    { destruct (pget n bs) as [w|] eqn:EG; [|reflexivity]. exfalso. pose proof (get_pre W0 EG) as P. rewrite pget_eq, BL in EG. pose proof (pre_len P) as PL. rewrite KL, BL in PL.
      destruct (Nat.ltb_spec al (pklen n)); [lia|]. destruct (Nat.eqb_spec al (pklen n)) as [E|E]; [apply KN; apply pre_eq; [exact P|lia]|].
      destruct (nth_error bs (pklen n)) as [b|] eqn:EB; [|discriminate]. rewrite (HE P b eq_refl) in EG. discriminate. }
    assert (TG : forall x, x <> bs -> pget t x = None) by (intros x Hx; rewrite t_get; destruct (list_eq_dec Bool.bool_dec x bs); [congruence|reflexivity]).
    assert (TB : pget t bs = Some v) by (rewrite t_get; destruct (list_eq_dec Bool.bool_dec bs bs); [reflexivity|congruence]).
    destruct (Nat.eqb_spec i (pklen n)) as [EA|EA], (Nat.eqb_spec i al) as [EB|EB]; cbn [andb orb].
    + exfalso. apply KN. rewrite firstn_all2 in F1 by lia. rewrite firstn_all2 in F1 by lia. exact F1.
    + (* n's key is a prefix of the new key *)
      destruct (Nat.ltb_spec (pklen n) al) as [LT2|]; [|subst mn; lia].
      assert (P : pre (kb n) bs) by (rewrite firstn_all2 in F1 by lia; rewrite F1; apply pre_firstn).
      destruct (nth_error bs (pklen n)) as [b|] eqn:EN; [|apply nth_error_None in EN; lia].
      assert (PB : pre (kb n ++ [b]) (kb t)) by (rewrite TK; apply pre_snoc; rewrite KL; auto).
      rewrite (@set_child_ok r n t b TW KL PB (or_intror I)). eexists. split; [reflexivity|]. unfold ins_ok. splits.
      * now apply wf_link.
      * intros p H _. destruct (set_link_eq n b (Some t)) as (_ & _ & _ & _ & ->). exact H.
      * intros x. rewrite set_link_get. unfold xput. destruct (list_eq_dec Bool.bool_dec x bs) as [->|NX].
        -- rewrite BL. destruct (Nat.ltb_spec al (pklen n)); [lia|]. destruct (Nat.eqb_spec al (pklen n)); [lia|]. rewrite EN, eqb_reflx. exact TB.
        -- rewrite (pget_eq n x). destruct (length x <? pklen n); [reflexivity|]. destruct (length x =? pklen n); [reflexivity|].
           destruct (nth_error x (pklen n)) as [b'|]; [|reflexivity]. destruct (Bool.eqb b' b) eqn:BE; [|reflexivity]. apply eqb_prop in BE. subst b'. rewrite (HE P b eq_refl). now apply TG.
      * rewrite G0. tauto.
    + (* the new key is a prefix of n's key *)
      destruct (Nat.ltb_spec (pklen n) al) as [LT2|LT2]; [subst mn; lia|].
      destruct r; [destruct (W4 eq_refl); subst mn; lia|].
      assert (P : pre bs (kb n)) by (rewrite (firstn_all2 (n := i) bs) in F1 by lia; rewrite <- F1; apply pre_firstn).
      destruct (nth_error (kb n) al) as [b|] eqn:EN; [|apply nth_error_None in EN; lia].
      assert (PB : pre (kb t ++ [b]) (kb n)) by (rewrite TK; apply pre_snoc; rewrite BL; auto).
      rewrite (@set_child_ok false t n b W0 (kb_len TW) PB (or_intror I)). eexists. split; [reflexivity|]. unfold ins_ok. splits.
      * now apply wf_link.
      * intros p H1 H2. destruct (set_link_eq t b (Some n)) as (_ & _ & _ & _ & ->). rewrite TK. exact H2.
      * intros x. rewrite set_link_get, PT2, TK. unfold xput. destruct (list_eq_dec Bool.bool_dec x bs) as [->|NX].
        -- rewrite BL, Nat.ltb_irrefl, Nat.eqb_refl. reflexivity.
        -- destruct (Nat.ltb_spec (length x) al) as [LX|LX]; [symmetry; apply (get_none W0); intros Q; apply pre_len in Q; lia|].
           destruct (Nat.eqb_spec (length x) al) as [LE|LE]; [symmetry; apply (get_none W0); intros Q; apply pre_len in Q; lia|].
           destruct (nth_error x al) as [b'|] eqn:EX; [|apply nth_error_None in EX; lia]. destruct (Bool.eqb b' b) eqn:BE; [reflexivity|].
           assert (GN : pget n x = None). { apply (get_none W0). intros Q. rewrite (pre_nth Q) in EX by lia. rewrite EN in EX. injection EX as ->. rewrite eqb_reflx in BE. discriminate. }
           rewrite GN. subst t. cbn [plink]. now destruct b'.
      * rewrite G0. tauto.
    + (* they part at bit i *)
      assert (IM : i < mn) by (subst mn; lia). specialize (F2 IM).
      destruct r; [destruct (W4 eq_refl); subst mn; lia|]. specialize (H0 eq_refl).
      assert (IP : 0 < i) by (destruct i; [congruence|lia]).
      set (br := PN (firstn i (pkey n)) i (@None V) false None None).
      assert (NB : new_node V room (pkey n) i = Ok br).
      { unfold new_node. destruct (Nat.eqb_spec i 0) as [|_]; [lia|]. replace (i <=? length (pkey n)) with true by (symmetry; apply Nat.leb_le; subst mn; lia).
        replace (i <=? room (octets i)) with true; [reflexivity|]. symmetry. apply Nat.leb_le. pose proof (HR (octets i)). unfold octets in *. lia. }
      rewrite NB. cbn [bind].
      assert (BK : kb br = firstn i (kb n)). { unfold br. unfold kb. cbn [pkey pklen]. rewrite bits_firstn, !firstn_firstn. f_equal. subst mn. lia. }
      assert (BKL : length (kb br) = i) by (rewrite BK, firstn_length; subst mn; lia).
      destruct (nth_error (kb n) i) as [b|] eqn:EN; [|apply nth_error_None in EN; subst mn; lia].
      destruct (nth_error bs i) as [b'|] eqn:ET; [|apply nth_error_None in ET; subst mn; lia].
      assert (BN : b' <> b) by congruence.
      assert (PN1 : pre (kb br ++ [b]) (kb n)) by (apply pre_snoc; rewrite BKL, BK; split; [apply pre_firstn|exact EN]).
      assert (PN2 : pre (kb br ++ [b']) (kb t)) by (rewrite TK; apply pre_snoc; rewrite BKL, BK, F1; split; [apply pre_firstn|exact ET]).
      rewrite (@set_child_ok true br n b W0 BKL PN1 (or_intror I)). cbn [bind]. destruct (set_link_eq br b (Some n)) as (Q1 & Q2 & Q3 & Q4 & Q5).
      rewrite (@set_child_ok true (set_link br b (Some n)) t b' TW) by (rewrite ?Q5, ?Q2; auto).
      eexists. split; [reflexivity|]. destruct (set_link_eq (set_link br b (Some n)) b' (Some t)) as (R1 & R2 & R3 & R4 & R5).
      assert (LK : forall b0, plink (set_link (set_link br b (Some n)) b' (Some t)) b0 = if Bool.eqb b0 b' then Some t else Some n).
      { intros b0. rewrite R4. destruct (Bool.eqb b0 b') eqn:X; [reflexivity|]. rewrite Q4. replace (Bool.eqb b0 b) with true by (destruct b0, b, b'; congruence || reflexivity || discriminate). reflexivity. }
      unfold ins_ok. splits.
      * constructor; rewrite ?R1, ?R2, ?R3, ?R5, ?Q1, ?Q2, ?Q3, ?Q5.
        -- unfold br. cbn [pkey]. now apply byte_firstn.
        -- unfold br. cbn [pkey pklen]. rewrite firstn_length. subst mn. lia.
        -- unfold br. cbn [pklen]. subst mn. lia.
        -- discriminate.
        -- unfold br. cbn [pklen]. lia.
        -- unfold br. cbn [pdata]. discriminate.
        -- intros _ _. split.
           ++ unfold br. cbn [pklen]. destruct (below W0 eq_refl) as (k & I & P). apply (@no_byte_branch k i I).
              ** apply pre_len in P. lia.
              ** subst mn. lia.
              ** exact IP.
              ** rewrite <- F1. destruct P as (s & ->). rewrite firstn_app. replace (i - length (kb n)) with 0 by lia. cbn [firstn]. now rewrite app_nil_r.
              ** rewrite (pre_nth P) by lia. congruence.
           ++ intros b0. rewrite LK. destruct (Bool.eqb b0 b'); discriminate.
        -- intros b0 c. rewrite LK. destruct (Bool.eqb b0 b'); intros [= <-]; assumption.
        -- intros b0 c. rewrite LK. destruct (Bool.eqb b0 b') eqn:X; intros [= <-]; [apply eqb_prop in X; subst b0; exact PN2|].
           replace b0 with b by (destruct b0, b, b'; congruence || reflexivity || discriminate). exact PN1.
      * intros p P1 P2. rewrite R5, Q5, BK. apply pre_firstn_le; [exact P1|]. destruct (Nat.le_gt_cases (length p) i) as [|Q]; [assumption|].
        rewrite (pre_nth P1 Q) in EN. rewrite (pre_nth P2 Q) in ET. congruence.
      * intros x. rewrite pget_eq, R2, R3, R5, Q2, Q3, Q5. unfold xput. change (pklen br) with i. change (pdata br) with (@None V).
        destruct (list_eq_dec Bool.bool_dec x bs) as [->|NX].
        -- rewrite BL. destruct (Nat.ltb_spec al i); [subst mn; lia|]. destruct (Nat.eqb_spec al i); [subst mn; lia|]. rewrite ET, LK, eqb_reflx. exact TB.
        -- assert (IN : i < pklen n) by (subst mn; lia). destruct (Nat.ltb_spec (length x) i) as [LX|LX]; [symmetry; apply (get_none W0); intros Q; apply pre_len in Q; lia|].
           destruct (Nat.eqb_spec (length x) i) as [LE|LE].
           { rewrite (get_none W0) by (intros Q; apply pre_len in Q; lia). destruct (list_eq_dec _ x (kb br)); reflexivity. }
           destruct (nth_error x i) as [b0|] eqn:EX; [|apply nth_error_None in EX; lia]. rewrite LK. destruct (Bool.eqb b0 b') eqn:BE; [|reflexivity].
           rewrite TG by assumption. symmetry. apply (get_none W0). intros Q. rewrite (pre_nth Q) in EX by lia. apply eqb_prop in BE. congruence.
      * rewrite G0. tauto.
Qed.

Lemma p_ins_ok r n : pwf r n -> (r = false -> nth_error (kb n) 0 = nth_error bs 0) ->
  exists n' nw, p_ins truthy room n buf al v = Ok (n', nw) /\ ins_ok r n n' nw.
Proof.
  intros W. induction W as [r n W1 W2 W3 W4 W5 W6 W7 W8 IH W9]. intros H0. pose proof bs_len as BL.
  assert (W : pwf r n) by (constructor; auto). pose proof (kb_len W) as KL.
  destruct (@match_key_ok (pkey n) buf (pklen n) W1 BB) as (m & Em & Hm); [lia|lia|].
  assert (AT : (pre (kb n) bs -> forall b, nth_error bs (pklen n) = Some b -> plink n b = None) -> exists n' nw, ins_at truthy room n buf al v = Ok (n', nw) /\ ins_ok r n n' nw) by now apply ins_at_ok.
  assert (HP : pre (kb n) bs <-> m = true /\ pklen n <= al).
  { rewrite Hm. fold (kb n). split.
    - intros P. pose proof (pre_len P) as PL. rewrite KL, BL in PL. split; [|exact PL]. apply pre_of_firstn in P. rewrite KL, bs_firstn in P by exact PL. congruence.
    - intros (E & PL). rewrite E, <- bs_firstn by exact PL. apply pre_firstn. }
  destruct n as [k kl d a l0 l1]. cbn [p_ins]. cbn [pkey pklen plink] in *. rewrite Em. cbn [bind]. destruct m.
  2:{ apply AT. intros P. apply HP in P as (P & _). discriminate. }
  destruct (Nat.leb_spec al kl) as [LE|LT].
  { apply AT. intros P b EN. assert (nth_error bs kl <> None) as X by congruence. apply nth_error_Some in X. lia. }
  assert (P : pre (kb (PN k kl d a l0 l1)) bs) by (apply HP; split; [reflexivity|lia]).
  rewrite check_bit_ok by assumption. rewrite <- bs_nth by exact LT. destruct (nth_error bs kl) as [b|] eqn:EN; [|apply nth_error_None in EN; lia]. cbn [of_opt bind].
  destruct (if b then l1 else l0) as [c|] eqn:EC.
  2:{ apply AT. intros _ b' [= <-]. exact EC. }
  set (n := PN k kl d a l0 l1) in *.
  assert (PB : pre (kb n ++ [b]) bs) by (apply pre_snoc; rewrite KL; auto).
  assert (PC : pre (kb n ++ [b]) (kb c)) by now apply W9.
  destruct (IH b c EC) as (c' & nw & E & (A1 & A2 & A3 & A4)).
  { intros _. assert (0 < length (kb n ++ [b])) by (rewrite app_length; cbn [length]; lia). rewrite (pre_nth PC), (pre_nth PB) by assumption. reflexivity. }
  rewrite E. cbn [bind fst snd]. assert (PC' : pre (kb n ++ [b]) (kb c')) by (apply A2; assumption).
  rewrite (@set_child_ok r n c' b A1 KL PC' (or_intror I)). cbn [bind]. eexists _, _. split; [reflexivity|]. unfold ins_ok. splits.
  - now apply wf_link.
  - intros p H _. destruct (set_link_eq n b (Some c')) as (_ & _ & _ & _ & ->). exact H.
  - intros x. rewrite set_link_get. unfold xput. rewrite (pget_eq n x). subst n. cbn [pklen plink pdata] in *. destruct (list_eq_dec Bool.bool_dec x bs) as [->|NX].
    + rewrite BL. destruct (Nat.ltb_spec al kl); [lia|]. destruct (Nat.eqb_spec al kl); [lia|]. rewrite EN, eqb_reflx, A3. unfold xput. destruct (list_eq_dec Bool.bool_dec bs bs); [reflexivity|congruence].
    + destruct (length x <? kl); [reflexivity|]. destruct (length x =? kl); [reflexivity|]. destruct (nth_error x kl) as [b'|]; [|reflexivity].
      destruct (Bool.eqb b' b) eqn:BE; [|reflexivity]. apply eqb_prop in BE. subst b'. rewrite EC, A3. unfold xput. destruct (list_eq_dec Bool.bool_dec x bs); [congruence|reflexivity].
  - rewrite A4, (pget_eq n bs). subst n. cbn [pklen plink] in *. rewrite BL. destruct (Nat.ltb_spec al kl); [lia|]. destruct (Nat.eqb_spec al kl); [lia|]. rewrite EN, EC. reflexivity.
Qed.
End Ins.
End Pat.
