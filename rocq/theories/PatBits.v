(** The bits of a byte string and the bit tests of [PatModel]. *)
From Verif Require Import Base TrieSpec PatModel.
Open Scope nat_scope.

Lemma firstn_snoc {A} (l : list A) i x : nth_error l i = Some x -> firstn (S i) l = firstn i l ++ [x].
Proof. revert i. induction l as [|a l IH]; intros [|i] E; cbn in *; try discriminate; [congruence|]. f_equal. now apply IH. Qed.
Lemma app_inv_len {A} (a b c d : list A) : length a = length b -> a ++ c = b ++ d -> a = b /\ c = d.
Proof. revert b. induction a as [|x a IH]; intros [|y b] L E; cbn in *; try discriminate; [auto|]. injection E as -> E. destruct (IH b) as [-> ->]; auto. Qed.
Lemma incl_firstn_in {A} n (l : list A) x : In x (firstn n l) -> In x l.
Proof. intros H. rewrite <- (firstn_skipn n l). apply in_or_app. now left. Qed.

(** Most significant bit first *)
Definition bits8 (b : Z) : list bool := map (fun i => Z.testbit b (7 - Z.of_nat i)) (seq 0 8).
Definition bits (k : list Z) : list bool := flat_map bits8 k.

Lemma bits8_len b : length (bits8 b) = 8.
Proof. reflexivity. Qed.
Lemma bits_len k : length (bits k) = 8 * length k.
Proof. induction k as [|b k IH]; [reflexivity|]. unfold bits in *. cbn [flat_map length]. rewrite app_length, IH, bits8_len. lia. Qed.
Lemma bits_app a b : bits (a ++ b) = bits a ++ bits b.
Proof. apply flat_map_app. Qed.
Lemma bits_firstn n k : bits (firstn n k) = firstn (8 * n) (bits k).
Proof.
  revert k. induction n as [|n IH]; intros k; [reflexivity|]. destruct k as [|b k]; [now rewrite !firstn_nil|].
  cbn [firstn]. unfold bits at 1 2. cbn [flat_map]. fold (bits (firstn n k)) (bits k). rewrite IH.
  replace (8 * S n) with (length (bits8 b) + 8 * n) by (rewrite bits8_len; lia). now rewrite firstn_app_2.
Qed.

Definition all_bytes : list Z := map Z.of_nat (seq 0 256).
Lemma in_all b : (0 <= b < 256)%Z -> In b all_bytes.
Proof. intros H. apply in_map_iff. exists (Z.to_nat b). split; [lia|]. apply in_seq. lia. Qed.
Lemma for_bytes (P : Z -> bool) : forallb P all_bytes = true -> forall b, (0 <= b < 256)%Z -> P b = true.
Proof. intros H b Hb. rewrite forallb_forall in H. apply H. now apply in_all. Qed.
Lemma for_bits (P : Z -> nat -> bool) n : forallb (fun b => forallb (P b) (seq 0 n)) all_bytes = true ->
  forall b i, (0 <= b < 256)%Z -> i < n -> P b i = true.
Proof.
  intros H b i Hb Hi. pose proof (@for_bytes (fun b => forallb (P b) (seq 0 n)) H b Hb) as X. cbn beta in X. rewrite forallb_forall in X. apply X. apply in_seq. lia.
Qed.

(** CHECK_BIT is the bit *)
Lemma check_byte b i : (0 <= b < 256)%Z -> i < 8 ->
  nth_error (bits8 b) i = Some (Z.land (Z.shiftr b (Z.of_nat (7 - i))) 1 =? 1)%Z.
Proof.
  intros Hb Hi.
  pose proof (@for_bits (fun b i => match nth_error (bits8 b) i with Some x => Bool.eqb x (Z.land (Z.shiftr b (Z.of_nat (7 - i))) 1 =? 1)%Z | None => false end) 8 eq_refl b i Hb Hi) as X.
  cbn beta in X. destruct (nth_error (bits8 b) i); [|discriminate]. apply eqb_prop in X. congruence.
Qed.
Lemma nth_bits k L : nth_error (bits k) L = match nth_error k (L / 8) with Some b => nth_error (bits8 b) (L mod 8) | None => None end.
Proof.
  revert L. induction k as [|b k IH]; intros L.
  - destruct (L / 8), L; reflexivity.
  - unfold bits. cbn [flat_map]. fold (bits k). destruct (Nat.lt_ge_cases L 8) as [H|H].
    + rewrite nth_error_app1 by (rewrite bits8_len; lia). rewrite Nat.div_small, Nat.mod_small by lia. reflexivity.
    + rewrite nth_error_app2 by (rewrite bits8_len; lia). rewrite IH, bits8_len.
      replace (L / 8) with (S ((L - 8) / 8)) by lia. replace (L mod 8) with ((L - 8) mod 8) by lia. reflexivity.
Qed.
Lemma check_bit_ok k L : byte_key k -> check_bit k L = of_opt (nth_error (bits k) L).
Proof.
  intros HB. unfold check_bit. rewrite nth_bits. destruct (nth_error k (L / 8)) as [b|] eqn:E; [|reflexivity]. cbn [of_opt bind].
  rewrite check_byte; [reflexivity| |lia]. unfold byte_key in HB. rewrite Forall_forall in HB. apply HB. eapply nth_error_In; eauto.
Qed.

(** Equal bits are equal bytes *)
Definition pack (l : list bool) : Z := fold_left (fun (a : Z) (x : bool) => 2 * a + (if x then 1 else 0))%Z l 0%Z.
Lemma pack_bits8 b : (0 <= b < 256)%Z -> pack (bits8 b) = b.
Proof. intros Hb. apply Z.eqb_eq. apply (@for_bytes (fun b => (pack (bits8 b) =? b)%Z) eq_refl b Hb). Qed.
Lemma bits8_inj a b : (0 <= a < 256)%Z -> (0 <= b < 256)%Z -> bits8 a = bits8 b -> a = b.
Proof. intros Ha Hb E. rewrite <- (pack_bits8 Ha), <- (pack_bits8 Hb). now rewrite E. Qed.
Lemma bits_inj a b : byte_key a -> byte_key b -> bits a = bits b -> a = b.
Proof.
  intros Ha. revert b. induction Ha as [|x a Hx Ha IH]; intros b Hb E.
  - destruct b as [|y b]; [reflexivity|]. apply (f_equal (@length bool)) in E. rewrite !bits_len in E. cbn [length] in E. lia.
  - destruct Hb as [|y b Hy Hb]; [apply (f_equal (@length bool)) in E; rewrite !bits_len in E; cbn [length] in E; lia|].
    unfold bits in E. cbn [flat_map] in E. fold (bits a) (bits b) in E.
    apply app_inv_len in E as [E1 E]; [|reflexivity].
    apply bits8_inj in E1; auto. subst y. f_equal. now apply IH.
Qed.
Lemma list_eqb_ok a b : list_eqb a b = true <-> a = b.
Proof.
  revert b. induction a as [|x a IH]; intros [|y b]; cbn [list_eqb]; try (split; [discriminate|discriminate]); [split; reflexivity|].
  rewrite andb_true_iff, Z.eqb_eq, IH. split; [intros [-> ->]; reflexivity|intros [= -> ->]; auto].
Qed.

(** The masked comparison compares the leading bits *)
Lemma mask_pack b r m : (0 <= b < 256)%Z -> r < 9 -> nth_error bitmask r = Some m -> Z.land b m = pack (firstn r (bits8 b) ++ repeat false (8 - r)).
Proof.
  intros Hb Hr E. pose proof (@for_bits (fun b r => match nth_error bitmask r with Some m => (Z.land b m =? pack (firstn r (bits8 b) ++ repeat false (8 - r)))%Z | None => true end) 9 eq_refl b r Hb Hr) as X.
  cbn beta in X. rewrite E in X. now apply Z.eqb_eq.
Qed.
Lemma mask_bits b r m : (0 <= b < 256)%Z -> r < 9 -> nth_error bitmask r = Some m -> firstn r (bits8 (Z.land b m)) = firstn r (bits8 b).
Proof.
  intros Hb Hr E. pose proof (@for_bits (fun b r => match nth_error bitmask r with Some m => if list_eq_dec Bool.bool_dec (firstn r (bits8 (Z.land b m))) (firstn r (bits8 b)) then true else false | None => true end) 9 eq_refl b r Hb Hr) as X.
  cbn beta in X. rewrite E in X. destruct (list_eq_dec Bool.bool_dec _ _); [assumption|discriminate].
Qed.
Lemma mask_eq a b r m : (0 <= a < 256)%Z -> (0 <= b < 256)%Z -> r < 9 -> nth_error bitmask r = Some m ->
  (Z.land a m =? Z.land b m)%Z = true <-> firstn r (bits8 a) = firstn r (bits8 b).
Proof.
  intros Ha Hb Hr E. rewrite Z.eqb_eq. split; intros H.
  - rewrite <- (mask_bits Ha Hr E), <- (mask_bits Hb Hr E). now rewrite H.
  - rewrite (mask_pack Ha Hr E), (mask_pack Hb Hr E). now rewrite H.
Qed.

Lemma firstn_bits k L : firstn L (bits k) = bits (firstn (L / 8) k) ++ match nth_error k (L / 8) with Some b => firstn (L mod 8) (bits8 b) | None => [] end.
Proof.
  revert L. induction k as [|b k IH]; intros L.
  - destruct (L / 8); cbn; now rewrite firstn_nil.
  - unfold bits at 1. cbn [flat_map]. fold (bits k). rewrite firstn_app, bits8_len. destruct (Nat.lt_ge_cases L 8) as [H|H].
    + replace (L - 8) with 0 by lia. rewrite Nat.div_small, Nat.mod_small by lia. cbn [firstn nth_error]. now rewrite app_nil_r.
    + rewrite firstn_all2 by (rewrite bits8_len; lia). rewrite IH. replace (L / 8) with (S ((L - 8) / 8)) by lia. replace (L mod 8) with ((L - 8) mod 8) by lia.
      cbn [firstn nth_error]. unfold bits at 2. cbn [flat_map]. fold (bits (firstn ((L - 8) / 8) k)). now rewrite app_assoc.
Qed.

Lemma match_key_ok A B L : byte_key A -> byte_key B -> L <= 8 * length A -> L <= 8 * length B ->
  exists m, match_key A B L = Ok m /\ (m = true <-> firstn L (bits A) = firstn L (bits B)).
Proof.
  intros HA HB LA LB. unfold match_key.
  assert (X : exists f, (if 8 <=? L then mem_eq A B (L / 8) else Ok true) = Ok f /\ (f = true <-> firstn (L / 8) A = firstn (L / 8) B)).
  { destruct (Nat.leb_spec 8 L) as [H|H].
    - unfold mem_eq. replace (L / 8 <=? length A) with true by (symmetry; apply Nat.leb_le; lia). replace (L / 8 <=? length B) with true by (symmetry; apply Nat.leb_le; lia).
      cbn [andb]. eexists. split; [reflexivity|]. apply list_eqb_ok.
    - exists true. split; [reflexivity|]. rewrite Nat.div_small by lia. cbn. tauto. }
  destruct X as (f & -> & Hf). cbn [bind]. rewrite !firstn_bits.
  assert (FL : length (bits (firstn (L / 8) A)) = length (bits (firstn (L / 8) B))) by (rewrite !bits_len, !firstn_length; lia).
  assert (FB : bits (firstn (L / 8) A) = bits (firstn (L / 8) B) <-> f = true).
  { rewrite Hf. split; [|now intros ->]. apply bits_inj; apply Forall_forall; intros x Hx; [apply (proj1 (Forall_forall _ _) HA)|apply (proj1 (Forall_forall _ _) HB)]; apply (incl_firstn_in Hx). }
  destruct (Nat.ltb_spec 0 (L mod 8)) as [H|H].
  - destruct (nth_error A (L / 8)) as [a|] eqn:EA; [|apply nth_error_None in EA; lia]. destruct (nth_error B (L / 8)) as [b|] eqn:EB; [|apply nth_error_None in EB; lia].
    destruct (nth_error bitmask (L mod 8)) as [m|] eqn:EM; [|apply nth_error_None in EM; cbn in EM; lia]. cbn [of_opt bind].
    assert (Ra : (0 <= a < 256)%Z) by (apply (proj1 (Forall_forall _ _) HA); eapply nth_error_In; eauto).
    assert (Rb : (0 <= b < 256)%Z) by (apply (proj1 (Forall_forall _ _) HB); eapply nth_error_In; eauto).
    eexists. split; [reflexivity|]. rewrite andb_true_iff, (@mask_eq a b (L mod 8) m Ra Rb ltac:(lia) EM), <- FB. split.
    + intros [-> ->]. reflexivity.
    + intros E. apply app_inv_len in E as [E1 E2]; auto.
  - cbn [bind]. eexists. split; [reflexivity|]. rewrite andb_true_r, <- FB. replace (L mod 8) with 0 by lia. cbn [firstn].
    replace (match nth_error A (L / 8) with Some _ => [] | None => [] end) with (@nil bool) by now destruct (nth_error A (L / 8)).
    replace (match nth_error B (L / 8) with Some _ => [] | None => [] end) with (@nil bool) by now destruct (nth_error B (L / 8)).
    rewrite !app_nil_r. tauto.
Qed.

(** ** Comparing two keys *)
Lemma same_bits_ok A B n : byte_key A -> byte_key B -> forall len, len + n <= 8 * length A -> len + n <= 8 * length B ->
  firstn len (bits A) = firstn len (bits B) ->
  exists r, same_bits n len A B = Ok r /\ len <= r <= len + n /\ firstn r (bits A) = firstn r (bits B) /\
    (r < len + n -> nth_error (bits A) r <> nth_error (bits B) r).
Proof.
  intros HA HB. induction n as [|n IH]; intros len LA LB E; cbn [same_bits].
  - exists len. splits; auto; try lia.
  - rewrite !check_bit_ok by assumption. destruct (nth_error (bits A) len) as [a|] eqn:EA; [|apply nth_error_None in EA; rewrite bits_len in EA; lia].
    destruct (nth_error (bits B) len) as [b|] eqn:EB; [|apply nth_error_None in EB; rewrite bits_len in EB; lia]. cbn [of_opt bind].
    destruct (Bool.eqb a b) eqn:AB.
    + apply eqb_prop in AB. subst b. destruct (IH (S len)) as (r & R1 & R2 & R3 & R4); [lia|lia| |].
      { rewrite (firstn_snoc EA), (firstn_snoc EB). now rewrite E. }
      exists r. splits; auto; try lia. intros H. apply R4. lia.
    + apply eqb_false_iff in AB. exists len. splits; auto; try lia. intros _. congruence.
Qed.
Lemma same_bytes_ok A B n : byte_key A -> byte_key B -> forall i, i + n <= length A -> i + n <= length B -> firstn i A = firstn i B ->
  exists j, same_bytes n i A B = Ok (8 * j) /\ i <= j <= i + n /\ firstn j A = firstn j B.
Proof.
  intros HA HB. induction n as [|n IH]; intros i LA LB E; cbn [same_bytes].
  - exists i. splits; auto; lia.
  - destruct (nth_error A i) as [a|] eqn:EA; [|apply nth_error_None in EA; lia]. destruct (nth_error B i) as [b|] eqn:EB; [|apply nth_error_None in EB; lia]. cbn [of_opt bind].
    destruct (Z.eqb_spec a b) as [->|N].
    + destruct (IH (S i)) as (j & J1 & J2 & J3); [lia|lia| |]. { rewrite (firstn_snoc EA), (firstn_snoc EB). now rewrite E. }
      exists j. splits; auto; lia.
    + exists i. splits; auto; lia.
Qed.
