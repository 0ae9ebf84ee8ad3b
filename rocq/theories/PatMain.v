(** Removing from the trie of [PatModel], and whole histories. *)
From Verif Require Import Base TrieSpec PatModel PatSpec PatBits PatProofs.
Open Scope nat_scope.

Section Rem.
Variables (V : Type) (truthy : V -> bool) (K : list (list Z)) (cap : nat).
Hypothesis HB : Forall byte_key K.
Hypothesis PF : prefix_free K.
Implicit Types (n c g : pnode V) (x : list bool).
Notation wf := (pwf truthy K cap).

Definition xdel (m : list bool -> option V) x : list bool -> option V := fun y => if list_eq_dec Bool.bool_dec y x then None else m y.

Lemma pre_bits (a b : list Z) : byte_key a -> byte_key b -> pre (bits a) (bits b) -> prefix a b.
Proof.
  intros Ha Hb P. apply pre_of_firstn in P. rewrite bits_len, <- bits_firstn in P. apply bits_inj in P; [|now apply byte_firstn|exact Ha].
  exists (skipn (length a) b). rewrite <- P at 1. now rewrite firstn_skipn.
Qed.
(** A node with a key has nothing below it *)
Lemma data_leaf n v b : wf false n -> pdata n = Some v -> plink n b = None.
Proof.
  intros W D. destruct (plink n b) as [c|] eqn:EC; [exfalso|reflexivity]. inversion W as [r0 n0 W1 W2 W3 W4 W5 W6 W7 W8 W9]; subst r0 n0.
  destruct (W6 v D) as (_ & k & I & E). destruct (below (W8 b c EC) eq_refl) as (k' & I' & P).
  pose proof (pre_trans (W9 b c EC) P) as Q. apply pre_snoc in Q as (Q & Q2). rewrite E in Q.
  rewrite Forall_forall in HB. pose proof (@PF k k' I I' (pre_bits (HB k I) (HB k' I') Q)) as X. subst k'.
  assert (nth_error (bits k) (length (kb n)) <> None) as Y by congruence. apply nth_error_Some in Y. rewrite E in Y. lia.
Qed.

Variables (buf : list Z) (len : nat).
Hypothesis BB : byte_key buf.
Hypothesis L1 : 1 <= len.
Hypothesis L2 : len <= length buf.
Let al := 8 * len.
Let bs := bits (arg_key buf len).

Definition del_ok r n (d : dres V) : Prop :=
  match pget n bs with
  | None => d = DNone
  | Some _ =>
    match d with
    | DNone => False
    | DKept n' => wf r n' /\ kb n' = kb n /\ forall x, pget n' x = xdel (pget n) bs x
    | DGone tk o => r = false /\ byte_key tk /\ pre (kb n) (bits tk) /\
      match o with
      | None => forall x, x <> bs -> pget n x = None
      | Some g => wf false g /\ pre (kb n) (kb g) /\ forall x, pget g x = xdel (pget n) bs x
      end
    end
  end.

Lemma p_del_ok r n : wf r n -> exists d, p_del r n buf al = Ok d /\ del_ok r n d.
Proof.
  intros W. induction W as [r n W1 W2 W3 W4 W5 W6 W7 W8 IH W9]. assert (W : wf r n) by (constructor; auto). pose proof (kb_len W) as KL.
  assert (BL : length bs = al) by (unfold bs; rewrite bits_len; unfold arg_key; rewrite firstn_length; unfold al; lia).
  assert (BN : forall i, i < al -> nth_error bs i = nth_error (bits buf) i) by (intros i Hi; unfold bs; rewrite arg_bits; now apply nth_firstn).
  assert (AL : 0 < al) by (unfold al; lia).
  destruct n as [k kl d a l0 l1]. set (n := PN k kl d a l0 l1) in *. unfold del_ok. rewrite (pget_eq n bs). subst n. cbn [p_del]. cbn [pkey pklen pdata plink] in *. set (n := PN k kl d a l0 l1) in *.
  rewrite BL. destruct (Nat.leb_spec kl al) as [H1|H1].
  2:{ destruct (Nat.ltb_spec al kl); [|lia]. eexists. split; reflexivity. }
  destruct (Nat.ltb_spec al kl) as [|_]; [lia|]. rewrite Nat.eqb_sym. destruct (Nat.eqb_spec al kl) as [E|E].
  - destruct (@match_key_ok k buf kl W1 BB) as (m & -> & Hm); [lia|unfold al in *; lia|]. cbn [bind].
    assert (Hm2 : m = true <-> kb n = bs). { rewrite Hm. unfold kb. subst n. cbn [pkey pklen]. unfold bs. rewrite arg_bits. fold al. rewrite <- E. tauto. }
    destruct (list_eq_dec Bool.bool_dec bs (kb n)) as [Q|Q].
    + replace m with true by (symmetry; apply Hm2; congruence). destruct r; [destruct (W4 eq_refl); lia|]. destruct d as [v|].
      2:{ exfalso. destruct (W7 eq_refl eq_refl) as (X & _). apply X. rewrite <- E. unfold al. rewrite Nat.mul_comm. apply Nat.mod_mul. lia. }
      assert (LF : forall b, plink n b = None) by (intros b; exact (@data_leaf n v b W eq_refl)).
      pose proof (LF false) as LF0. pose proof (LF true) as LF1. subst n. cbn [plink] in LF0, LF1. subst l0 l1.
      eexists. split; [reflexivity|]. cbn [delete_node]. splits; auto.
      * unfold kb. cbn [pkey pklen]. apply pre_firstn.
      * intros x Hx. rewrite pget_eq. cbn [pklen pdata plink]. destruct (length x <? kl); [reflexivity|]. destruct (length x =? kl).
        -- destruct (list_eq_dec _ x _); [congruence|reflexivity].
        -- destruct (nth_error x kl) as [[]|]; reflexivity.
    + replace m with false by (destruct m; [exfalso; apply Q; symmetry; now apply Hm2|reflexivity]). rewrite E, Nat.leb_refl. eexists. split; reflexivity.
  - cbn [bind]. destruct (Nat.leb_spec al kl) as [|H3]; [lia|]. rewrite check_bit_ok by assumption. rewrite <- BN by lia.
    destruct (nth_error bs kl) as [b|] eqn:EN; [|apply nth_error_None in EN; lia]. cbn [of_opt bind].
    destruct (if b then l1 else l0) as [c|] eqn:EC; [|eexists; split; reflexivity].
    destruct (IH b c EC) as (dr & -> & D). cbn [bind]. unfold del_ok in D. destruct (pget c bs) as [v|] eqn:EG; [|subst dr; eexists; split; reflexivity].
    assert (EL : plink n b = Some c) by exact EC.
    assert (GX : forall x, pget n x = if length x <? kl then None else if length x =? kl then (if list_eq_dec Bool.bool_dec x (kb n) then d else None)
                   else match nth_error x kl with Some b' => match plink n b' with Some c => pget c x | None => None end | None => None end) by (intros x; apply pget_eq).
    assert (NB : forall x, length x = kl -> x <> bs) by (intros x Hx ->; lia).
    assert (ST : forall g x, (forall y, pget g y = xdel (pget c) bs y) -> pget (set_link n b (Some g)) x = xdel (pget n) bs x).
    { intros g x Hg. rewrite set_link_get. unfold xdel. rewrite GX. change (pklen n) with kl. change (pdata n) with d. destruct (list_eq_dec Bool.bool_dec x bs) as [->|NX].
      - rewrite BL. destruct (Nat.ltb_spec al kl); [lia|]. destruct (Nat.eqb_spec al kl); [lia|]. rewrite EN, eqb_reflx, Hg. unfold xdel. destruct (list_eq_dec Bool.bool_dec bs bs); [reflexivity|congruence].
      - destruct (length x <? kl); [reflexivity|]. destruct (length x =? kl); [reflexivity|]. destruct (nth_error x kl) as [b'|]; [|reflexivity]. destruct (Bool.eqb b' b) eqn:BE; [|reflexivity].
        apply eqb_prop in BE. subst b'. rewrite EL, Hg. unfold xdel. destruct (list_eq_dec Bool.bool_dec x bs); [congruence|reflexivity]. }
    pose proof (W9 b c EL) as PC.
    assert (ND : r = false -> d = None /\ plink n (negb b) <> None).
    { intros ->. destruct d as [w|]; [pose proof (@data_leaf n w b W eq_refl); congruence|]. split; [reflexivity|]. apply (W7 eq_refl eq_refl). }
    destruct dr as [|c'|tk [g|]].
    + contradiction.
    + destruct D as (D1 & D2 & D3). eexists. split; [reflexivity|]. cbv beta iota. destruct (set_link_eq n b (Some c')) as (_ & _ & _ & _ & X). splits; [|exact X|].
      * apply wf_link; [exact W|exact D1|now rewrite D2].
      * intros x. now apply ST.
    + destruct D as (_ & _ & _ & D1 & D2 & D3). assert (PG : pre (kb n ++ [b]) (kb g)) by exact (pre_trans PC D2).
      rewrite (@set_child_ok _ truthy K cap r n g b D1 KL PG (or_intror I)). cbn [bind].
      assert (HN : has_null (set_link n b (Some g)) && negb r = false).
      { destruct r; [apply andb_false_r|]. destruct (ND eq_refl) as (_ & X). subst n. cbn [plink] in X. destruct b; cbn [set_link has_null negb] in *; [destruct l0; [reflexivity|congruence]|destruct l1; [reflexivity|congruence]]. }
      rewrite HN. eexists. split; [reflexivity|]. cbv beta iota. destruct (set_link_eq n b (Some g)) as (_ & _ & _ & _ & X). splits; [|exact X|].
      * now apply wf_link.
      * intros x. now apply ST.
    + destruct D as (_ & D1 & D2 & D3). rewrite check_bit_ok by assumption.
      assert (EB : nth_error (bits tk) kl = Some b) by (pose proof (pre_trans PC D2) as Q; apply pre_snoc in Q as (_ & Q); rewrite KL in Q; exact Q).
      rewrite EB. cbn [of_opt bind]. destruct (set_link_eq n b None) as (X1 & X2 & X3 & X4 & X5).
      assert (GD : forall x, pget (set_link n b None) x = xdel (pget n) bs x).
      { intros x. rewrite set_link_get. unfold xdel. rewrite GX. change (pklen n) with kl. change (pdata n) with d. destruct (list_eq_dec Bool.bool_dec x bs) as [->|NX].
        - rewrite BL. destruct (Nat.ltb_spec al kl); [lia|]. destruct (Nat.eqb_spec al kl); [lia|]. rewrite EN, eqb_reflx. reflexivity.
        - destruct (length x <? kl); [reflexivity|]. destruct (length x =? kl); [reflexivity|]. destruct (nth_error x kl) as [b'|]; [|reflexivity]. destruct (Bool.eqb b' b) eqn:BE; [|reflexivity].
          apply eqb_prop in BE. subst b'. rewrite EL. symmetry. now apply D3. }
      destruct r; cbn [negb].
      * rewrite andb_false_r. eexists. split; [reflexivity|]. cbv beta iota. splits; [|exact X5|exact GD].
        constructor; rewrite ?X1, ?X2, ?X3, ?X5; auto; try discriminate.
        -- intros b' c0. rewrite X4. destruct (Bool.eqb b' b); [discriminate|apply W8].
        -- intros b' c0. rewrite X4. destruct (Bool.eqb b' b); [discriminate|apply W9].
      * destruct (ND eq_refl) as (-> & NN). destruct (plink n (negb b)) as [g|] eqn:EO; [|congruence].
        assert (DN : has_null (set_link n b None) && true = true /\ delete_node (set_link n b None) = DGone k (Some g)).
        { subst n. cbn [plink] in EO. destruct b; cbn [negb] in EO; subst; cbn [set_link has_null delete_node andb]; auto. }
        destruct DN as (-> & ->). eexists. split; [reflexivity|]. cbv beta iota.
        pose proof (W9 (negb b) g EO) as PO. pose proof (W8 (negb b) g EO) as WO. splits; auto.
        -- unfold kb. subst n. cbn [pkey pklen]. apply pre_firstn.
        -- eapply pre_trans; [|exact PO]. now exists [negb b].
        -- intros x. rewrite <- GD, set_link_get. change (pklen n) with kl. change (pdata n) with (@None V). pose proof (kb_len WO) as GL. pose proof (pre_len PO) as PL. rewrite app_length, KL in PL. change (pklen n) with kl in PL. cbn [length] in PL.
           destruct (Nat.ltb_spec (length x) kl); [apply (get_none WO); intros Q; apply pre_len in Q; lia|].
           destruct (Nat.eqb_spec (length x) kl) as [LE|LE].
           { rewrite (get_none WO) by (intros Q; apply pre_len in Q; lia). destruct (list_eq_dec _ x _); reflexivity. }
           destruct (nth_error x kl) as [b'|] eqn:EX; [|apply nth_error_None in EX; lia]. destruct (Bool.eqb b' b) eqn:BE.
           ++ apply (get_none WO). intros Q. pose proof (pre_trans PO Q) as Q2. apply pre_snoc in Q2 as (_ & Q2). rewrite KL in Q2. change (pklen n) with kl in Q2. apply eqb_prop in BE. subst b'. rewrite EX in Q2. destruct b; discriminate.
           ++ replace b' with (negb b) by (destruct b, b'; try discriminate; reflexivity). now rewrite EO.
Qed.
End Rem.

(** ** Histories *)
Section Hist.
Variables (V : Type) (truthy : V -> bool) (room : nat -> nat) (cap : nat).
Hypothesis HR : forall n, 8 * n <= room n.

Definition cnt_ok (m : bmap V) (z : Z) : Prop := exists L, NoDup L /\ (forall k, In k L <-> m k <> None) /\ z = u32 (Z.of_nat (length L)).
Definition pinv (K : list (list Z)) (t : ptree V) (m : bmap V) : Prop :=
  pwf truthy K cap true (proot t) /\ (forall k, byte_key k -> pget (proot t) (bits k) = m k) /\ cnt_ok m (pcount t) /\ (forall k, m k <> None -> byte_key k).

Lemma wf_root K : pwf truthy K cap true (proot (@p_new V)).
Proof. constructor; cbn; try lia; try discriminate; auto; [constructor|intros []; discriminate|intros []; discriminate]. Qed.
Lemma pinv_new K : pinv K p_new b_empty.
Proof.
  unfold pinv. splits.
  - apply wf_root.
  - intros k _. rewrite pget_eq. unfold b_empty. cbn. destruct (length (bits k)) eqn:E; [destruct (list_eq_dec _ _ _); reflexivity|]. destruct (bits k) as [|[] ?]; reflexivity.
  - exists []. splits; [constructor|intros k; cbn; unfold b_empty; intuition congruence|reflexivity].
  - intros k H. now destruct H.
Qed.

Lemma arg_byte buf len : byte_key buf -> byte_key (arg_key buf len).
Proof. apply byte_firstn. Qed.
Lemma u32_succ a : u32 (u32 a + 1) = u32 (a + 1).
Proof. unfold u32. rewrite Zplus_mod_idemp_l. reflexivity. Qed.
Lemma u32_pred a : u32 (u32 a - 1) = u32 (a - 1).
Proof. unfold u32. rewrite Zminus_mod_idemp_l. reflexivity. Qed.

Lemma insert_inv K t m buf len v : top_ok K -> Forall byte_key K -> pinv K t m -> byte_key buf -> 1 <= len <= cap -> 8 * cap <= length buf -> truthy v = true -> In (arg_key buf len) K ->
  exists t' nw, p_insert truthy room t buf len v = Ok (t', nw) /\ (nw = true <-> m (arg_key buf len) = None) /\ pinv K t' (b_put m (arg_key buf len) v).
Proof.
  intros HK HB (W & G & C & BM) BB L1 L2 TV IK. unfold p_insert. replace (len =? 0) with false by (symmetry; apply Nat.eqb_neq; lia).
  destruct (@p_ins_ok V truthy K cap room HR HK HB buf len v BB L1 L2 IK TV true (proot t) W) as (n' & nw & -> & (A1 & A2 & A3 & A4)); [discriminate|]. cbn [bind fst snd].
  eexists _, nw. split; [reflexivity|]. rewrite G in A4 by now apply arg_byte. split; [exact A4|]. unfold pinv. cbn [proot pcount]. splits.
  - exact A1.
  - intros k Hk. rewrite A3. unfold xput, b_put. destruct (list_eq_dec Bool.bool_dec (bits k) (bits (arg_key buf len))) as [E|E].
    + apply bits_inj in E; [|exact Hk|now apply arg_byte]. destruct (list_eq_dec Z.eq_dec k (arg_key buf len)); [reflexivity|contradiction].
    + destruct (list_eq_dec Z.eq_dec k (arg_key buf len)) as [->|]; [congruence|]. now apply G.
  - destruct C as (L & ND & HL & ->). destruct nw.
    + exists (arg_key buf len :: L). assert (m (arg_key buf len) = None) as MN by now apply A4. splits.
      * constructor; [rewrite HL; auto|exact ND].
      * intros k. cbn [In]. unfold b_put. destruct (list_eq_dec Z.eq_dec k (arg_key buf len)) as [->|N]; [intuition congruence|]. rewrite <- HL. intuition congruence.
      * rewrite u32_succ. f_equal. cbn [length]. lia.
    + exists L. splits; [exact ND| |].
      * intros k. rewrite HL. unfold b_put. destruct (list_eq_dec Z.eq_dec k (arg_key buf len)) as [->|N]; [|tauto]. split; [discriminate|]. intros _ X. apply A4 in X. discriminate.
      * rewrite u32_pred, u32_succ. f_equal. lia.
  - intros k. unfold b_put. destruct (list_eq_dec Z.eq_dec k (arg_key buf len)) as [->|N]; [intros _; now apply arg_byte|apply BM].
Qed.

Lemma remove_inv K t m buf len : prefix_free K -> Forall byte_key K -> pinv K t m -> byte_key buf -> 1 <= len -> len <= length buf ->
  exists t' b, p_remove t buf len = Ok (t', b) /\ (b = true <-> m (arg_key buf len) <> None) /\ pinv K t' (b_del m (arg_key buf len)).
Proof.
  intros PF HB (W & G & C & BM) BB L1 L2. unfold p_remove. replace (len =? 0) with false by (symmetry; apply Nat.eqb_neq; lia).
  destruct (@p_del_ok V truthy K cap HB PF buf len BB L1 L2 true (proot t) W) as (d & -> & D). cbn [bind]. unfold del_ok in D. rewrite G in D by now apply arg_byte.
  destruct (m (arg_key buf len)) as [v|] eqn:EM.
  - destruct d as [|n'|tk o]; [contradiction| |destruct D; discriminate]. destruct D as (D1 & _ & D3).
    eexists _, true. split; [reflexivity|]. split; [split; congruence|]. unfold pinv. cbn [proot pcount]. splits.
    + exact D1.
    + intros k Hk. rewrite D3. unfold xdel, b_del. destruct (list_eq_dec Bool.bool_dec (bits k) (bits (arg_key buf len))) as [E|E].
      * apply bits_inj in E; [|exact Hk|now apply arg_byte]. destruct (list_eq_dec Z.eq_dec k (arg_key buf len)); [reflexivity|contradiction].
      * destruct (list_eq_dec Z.eq_dec k (arg_key buf len)) as [->|]; [congruence|]. now apply G.
    + destruct C as (L & ND & HL & ->). destruct (in_split (arg_key buf len) L) as (l1 & l2 & EL); [apply HL; congruence|]. subst L.
      exists (l1 ++ l2). splits.
      * eapply NoDup_remove_1; exact ND.
      * apply NoDup_remove_2 in ND. intros k. specialize (HL k). unfold b_del. rewrite in_app_iff in *. cbn [In] in HL. destruct (list_eq_dec Z.eq_dec k (arg_key buf len)) as [->|N]; [tauto|]. rewrite <- HL. intuition congruence.
      * rewrite u32_pred. f_equal. rewrite !app_length. cbn [length]. lia.
    + intros k. unfold b_del. destruct (list_eq_dec Z.eq_dec k (arg_key buf len)); [congruence|apply BM].
  - subst d. eexists _, false. split; [reflexivity|]. split; [split; congruence|].
    assert (X : forall k, b_del m (arg_key buf len) k = m k) by (intros k; unfold b_del; destruct (list_eq_dec Z.eq_dec k (arg_key buf len)) as [->|]; congruence).
    unfold pinv. splits; auto.
    + intros k Hk. rewrite X. auto.
    + destruct C as (L & ND & HL & EZ). exists L. splits; auto. intros k. rewrite X. apply HL.
    + intros k. rewrite X. apply BM.
Qed.

Lemma run_inv K os t m : top_ok K -> Forall byte_key K -> Forall (@is_ins V) os \/ prefix_free K -> incl (map (@po_key V) os) K -> Forall (po_ok truthy cap) os -> pinv K t m ->
  exists t', p_run truthy room t os = Ok t' /\ pinv K t' (fold_left (@pm_step V) os m).
Proof.
  intros HK HB. revert t m. induction os as [|o os IH]; intros t m HD HI HO Inv; [exists t; split; [reflexivity|exact Inv]|].
  inversion HO as [|o' os' O1 O2]; subst. assert (IK : In (po_key o) K) by (apply HI; now left). assert (HI' : incl (map (@po_key V) os) K) by (intros k Hk; apply HI; now right).
  assert (HD' : Forall (@is_ins V) os \/ prefix_free K) by (destruct HD as [HD|HD]; [inversion HD; auto|auto]).
  cbn [p_run fold_left]. destruct o as [buf len v|buf len]; cbn [po_key po_ok p_step pm_step] in *.
  - destruct O1 as (B1 & B2 & B3 & B4). destruct (insert_inv HK HB Inv B1 B2 B3 B4 IK) as (t' & nw & -> & _ & Inv'). cbn [bind fst]. now apply IH.
  - destruct O1 as (B1 & B2 & B3). destruct HD as [HD|PF]; [inversion HD; contradiction|].
    destruct (@remove_inv K t m buf len PF HB Inv B1) as (t' & b & -> & _ & Inv'); [lia|lia|]. cbn [bind fst]. apply IH; auto.
Qed.

Lemma keys_bytes os : Forall (po_ok truthy cap) os -> Forall byte_key (map (@po_key V) os).
Proof. intros H. apply Forall_forall. intros k Hk. apply in_map_iff in Hk as (o & <- & I). rewrite Forall_forall in H. specialize (H o I). destruct o; cbn in *; apply arg_byte; tauto. Qed.

(** Everything about a history *)
Lemma pat_main os : Forall (po_ok truthy cap) os -> top_ok (map (@po_key V) os) -> Forall (@is_ins V) os \/ prefix_free (map (@po_key V) os) ->
  exists t, p_run truthy room p_new os = Ok t /\
    (forall buf len, byte_key buf -> 1 <= len <= length buf -> p_lookup t buf len = Ok (option_map Some (pm_run os (arg_key buf len)))) /\
    cnt_ok (pm_run os) (pcount t).
Proof.
  intros HO HK HD. destruct (@run_inv (map (@po_key V) os) os p_new b_empty HK (keys_bytes HO) HD (incl_refl _) HO (pinv_new _)) as (t & E & (W & G & C & BM)).
  exists t. splits; [exact E| |exact C]. intros buf len BB L. unfold p_lookup. replace (len =? 0) with false by (symmetry; apply Nat.eqb_neq; lia).
  rewrite (find_ok W BB) by lia. rewrite G by now apply arg_byte. reflexivity.
Qed.
Lemma pat_insert os buf len v : Forall (po_ok truthy cap) (os ++ [PIns buf len v]) -> top_ok (map (@po_key V) (os ++ [PIns buf len v])) -> Forall (@is_ins V) os \/ prefix_free (map (@po_key V) (os ++ [PIns buf len v])) ->
  exists t t' nw, p_run truthy room p_new os = Ok t /\ p_insert truthy room t buf len v = Ok (t', nw) /\ (nw = true <-> pm_run os (arg_key buf len) = None).
Proof.
  intros HO HK HD. set (K := map (@po_key V) (os ++ [PIns buf len v])) in *. pose proof (keys_bytes HO) as HB. fold K in HB.
  apply Forall_app in HO as [HO1 HO2]. pose proof (Forall_inv HO2) as (B1 & B2 & B3 & B4).
  destruct (@run_inv K os p_new b_empty HK HB HD) as (t & E & Inv).
  { intros k Hk. subst K. rewrite map_app. apply in_or_app. now left. } { exact HO1. } { apply pinv_new. }
  assert (IK : In (arg_key buf len) K) by (subst K; rewrite map_app; apply in_or_app; right; now left).
  destruct (insert_inv HK HB Inv B1 B2 B3 B4 IK) as (t' & nw & E2 & N & _). exists t, t', nw. splits; auto.
Qed.
Lemma pat_remove os buf len : Forall (po_ok truthy cap) os -> byte_key buf -> 1 <= len <= length buf -> top_ok (map (@po_key V) os) -> prefix_free (map (@po_key V) os) ->
  exists t t' b, p_run truthy room p_new os = Ok t /\ p_remove t buf len = Ok (t', b) /\ (b = true <-> pm_run os (arg_key buf len) <> None).
Proof.
  intros HO BB L HK PF. set (K := map (@po_key V) os) in *. pose proof (keys_bytes HO) as HB. fold K in HB.
  destruct (@run_inv K os p_new b_empty HK HB (or_intror PF) (incl_refl _) HO (pinv_new _)) as (t & E & Inv).
  destruct (@remove_inv K t _ buf len PF HB Inv BB) as (t' & b & E2 & N & _); [lia|lia|]. exists t, t', b. splits; auto.
Qed.
End Hist.
