(** Facts about the helpers of PatriciaUtils.hpp and PersistEmulation.hpp. *)
From Verif Require Import Base SlotLemmas PUtilModel PUtilSpec.
Open Scope Z_scope.

Lemma rev_add rv n : 0 <= rv -> Z.lor (Z.shiftl rv 1) (Z.land n 1) = 2 * rv + Z.b2z (Z.testbit n 0).
Proof.
  intros Hr. rewrite Z.bit0_odd. change 1 with (Z.ones 1) at 2. rewrite Z.land_ones by lia. change (2 ^ 1) with 2. rewrite Zmod_odd.
  rewrite Z.shiftl_mul_pow2 by lia. change (2 ^ 1) with 2. destruct (Z.odd n); destruct rv as [|q|q]; try lia; rewrite (Z.mul_comm _ 2); reflexivity.
Qed.
Lemma mirror_step i n rv : mirrored i n rv -> mirrored (S i) n (2 * rv + Z.b2z (Z.testbit n (Z.of_nat i))).
Proof.
  intros [R H]. split.
  - rewrite Nat2Z.inj_succ, Z.pow_succ_r by lia. destruct (Z.testbit n (Z.of_nat i)); cbn [Z.b2z]; lia.
  - intros j Hj. assert (j = 0 \/ 0 < j) as [->|J] by lia.
    + replace (Z.of_nat (S i) - 1 - 0) with (Z.of_nat i) by lia. apply Z.testbit_0_r.
    + replace j with (Z.succ (j - 1)) at 1 by lia. rewrite Z.testbit_succ_r by lia. rewrite H by lia. f_equal. lia.
Qed.
Lemma rev_loop signed w n : forall m i rv, (i + m <= w)%nat -> mirrored i n rv ->
  exists rv', for_up i m (fun _ => rev_body signed w) (rv, Z.shiftr n (Z.of_nat i)) = Ok (rv', Z.shiftr n (Z.of_nat (i + m))) /\ mirrored (i + m) n rv'.
Proof.
  induction m as [|m IH]; intros i rv Hw HM; cbn [for_up].
  - rewrite Nat.add_0_r. eauto.
  - unfold rev_body at 1. rewrite rev_add by apply HM. rewrite Z.shiftr_spec by lia. rewrite Z.add_0_l.
    pose proof (mirror_step HM) as HS. pose proof (proj1 HS) as HR.
    assert (HP : 2 ^ Z.of_nat (S i) <= 2 ^ Z.of_nat w) by (apply Z.pow_le_mono_r; lia).
    rewrite Z.shiftr_shiftr by lia. replace (Z.of_nat i + 1) with (Z.of_nat (S i)) by lia.
    rewrite Z.mod_small by lia. destruct (Z.ltb_spec (2 * rv + Z.b2z (Z.testbit n (Z.of_nat i))) (2 ^ Z.of_nat w)); [|lia].
    destruct (IH (S i) _ ltac:(lia) HS) as (rv' & E & M'). exists rv'. replace (i + S m)%nat with (S i + m)%nat by lia. split; [|exact M'].
    destruct signed; cbn [bind]; exact E.
Qed.
Lemma reverse_ok signed w n b : (b <= w)%nat -> exists r, reverse signed w n b = Ok r /\ mirrored b n r.
Proof.
  intros H. unfold reverse. destruct (Nat.ltb_spec w b); [lia|].
  destruct (@rev_loop signed w n b 0 0) as (r & E & M); [lia| |].
  - split; [cbn; lia|intros; lia].
  - rewrite Z.shiftr_0_r in E. rewrite E. cbn [bind fst]. exists r. split; auto.
Qed.
Lemma mirrored_inj b n r r' : mirrored b n r -> mirrored b n r' -> r = r'.
Proof.
  intros [R H] [R' H']. apply Z.bits_inj'. intros i Hi. destruct (Z.lt_ge_cases i (Z.of_nat b)) as [L|L]; [rewrite H, H'; auto; lia|].
  rewrite <- (Z.mod_small r (2 ^ Z.of_nat b)), <- (Z.mod_small r' (2 ^ Z.of_nat b)) by lia. now rewrite !Z.mod_pow2_bits_high by lia.
Qed.
Lemma mirrored_twice b n r : mirrored b n r -> mirrored b r (n mod 2 ^ Z.of_nat b).
Proof.
  intros [R H]. split; [apply Z.mod_pos_bound; lia|]. intros i Hi. rewrite Z.mod_pow2_bits_low by lia. rewrite H by lia. f_equal. lia.
Qed.
Lemma reverse_twice signed w n b : (b <= w)%nat -> (do r <- reverse signed w n b; reverse signed w r b) = Ok (n mod 2 ^ Z.of_nat b).
Proof.
  intros H. destruct (@reverse_ok signed w n b H) as (r & -> & M). cbn [bind]. destruct (@reverse_ok signed w r b H) as (s & -> & M').
  f_equal. eapply mirrored_inj; [exact M'|]. now apply mirrored_twice.
Qed.

(** ** toBinaryString *)
Lemma land_bit b k : 0 <= k -> negb (Z.land b (Z.shiftl 1 k) =? 0) = Z.testbit b k.
Proof.
  intros Hk. rewrite Z.shiftl_1_l. assert (T : Z.testbit (Z.land b (2 ^ k)) k = Z.testbit b k) by (rewrite Z.land_spec, Z.pow2_bits_true, andb_true_r by lia; reflexivity).
  destruct (Z.testbit b k) eqn:E.
  - destruct (Z.eqb_spec (Z.land b (2 ^ k)) 0) as [Z0|]; [|reflexivity]. rewrite Z0, Z.bits_0 in T. discriminate.
  - destruct (Z.eqb_spec (Z.land b (2 ^ k)) 0) as [|N]; [reflexivity|]. exfalso. apply N. apply Z.bits_inj'. intros i Hi. rewrite Z.land_spec, Z.bits_0.
    destruct (Z.eq_dec i k) as [->|D]; [now rewrite E|]. rewrite Z.pow2_bits_false by lia. apply andb_false_r.
Qed.
Section Bits.
Variables (bytes : list Z) (size : nat).
Hypothesis (Hs : Z.of_nat size < 2 ^ 31) (Hb : (size <= 8 * length bytes)%nat).
Notation B n := (map (bit_at bytes) (seq 0 n)).
Lemma small z : 0 <= z < 2 ^ 63 -> to_sz z = z.
Proof. intros H. unfold to_sz. apply Z.mod_small. lia. Qed.
Lemma bits_of_ok i : forall m j, (j + m = 8)%nat -> (8 * i + j <= size)%nat ->
  bits_of (map Some bytes) (Z.of_nat size) i m j (B (8 * i + j)) = Ok (B (Nat.min size (8 * i + 8)), (size <? 8 * i + 8)%nat).
Proof.
  induction m as [|m IH]; intros j Hj Hi; cbn [bits_of].
  - assert (j = 8%nat) by lia. subst j. rewrite Nat.min_r by lia. destruct (Nat.ltb_spec size (8 * i + 8)); [lia|reflexivity].
  - rewrite !small by lia. destruct (Z.eqb_spec (Z.of_nat i * 8 + Z.of_nat j) (Z.of_nat size)) as [E|N].
    + destruct (Nat.ltb_spec size (8 * i + 8)); [|lia]. replace (Nat.min size (8 * i + 8)) with (8 * i + j)%nat by lia. reflexivity.
    + destruct (nth_error bytes i) as [b|] eqn:Eb; [|apply nth_error_None in Eb; lia].
      assert (Eg : aget (map Some bytes) i = Ok b) by (unfold aget; now rewrite nth_error_map, Eb). rewrite Eg. cbn [bind].
      rewrite land_bit by lia. rewrite <- (IH (S j)) by lia. f_equal. replace (8 * i + S j)%nat with (S (8 * i + j)) by lia. rewrite seq_S, map_app. cbn [map Nat.add]. f_equal. f_equal.
      unfold bit_at. replace ((8 * i + j) / 8)%nat with i by lia. replace ((8 * i + j) mod 8)%nat with j by lia.
      now rewrite (nth_error_nth _ _ 0 Eb).
Qed.
Lemma bytes_of_ok : forall fuel i, (8 * i <= size)%nat -> (size / 8 < fuel + i)%nat ->
  bytes_of fuel (map Some bytes) (Z.of_nat size) i (B (8 * i)) = Ok (B size).
Proof.
  induction fuel as [|fuel IH]; intros i Hi Hf; cbn [bytes_of]; [lia|].
  assert (Q : to_sz (Z.quot (Z.of_nat size) 8) = Z.of_nat (size / 8)).
  { rewrite Z.quot_div_nonneg by lia. rewrite Nat2Z.inj_div. apply small. lia. }
  rewrite Q. destruct (Z.leb_spec (Z.of_nat i) (Z.of_nat (size / 8))); [|lia].
  pose proof (@bits_of_ok i 8 0 eq_refl ltac:(lia)) as E. rewrite Nat.add_0_r in E. rewrite E. cbn [bind fst snd].
  destruct (Nat.ltb_spec size (8 * i + 8)).
  - now rewrite Nat.min_l by lia.
  - rewrite Nat.min_r by lia. replace (8 * i + 8)%nat with (8 * S i)%nat by lia. apply IH; lia.
Qed.
End Bits.
Lemma binary_ok bytes size fuel : Z.of_nat size < 2 ^ 31 -> (size <= 8 * length bytes)%nat -> (size / 8 < fuel)%nat ->
  exists out, toBinaryString fuel (map Some bytes) (Z.of_nat size) = Ok out /\ length out = size /\
    forall x, (x < size)%nat -> nth_error out x = Some (bit_at bytes x).
Proof.
  intros Hs Hb Hf. exists (map (bit_at bytes) (seq 0 size)). split; [|split].
  - apply (@bytes_of_ok bytes size Hs Hb fuel 0); lia.
  - now rewrite map_length, seq_length.
  - intros x Hx. rewrite nth_error_map. rewrite nth_error_nth' with (d := 0%nat) by (rewrite seq_length; lia). rewrite seq_nth by lia. reflexivity.
Qed.
(** Negative sizes down to -7: the loop runs once and eight bits come out. *)
Lemma binary_negative bytes size fuel : -7 <= size < 0 -> bytes <> [] -> (1 < fuel)%nat -> exists out, toBinaryString fuel (map Some bytes) size = Ok out /\ length out = 8%nat.
Proof.
  intros Hs Hb Hf. destruct bytes as [|b bytes]; [contradiction|]. destruct fuel as [|[|fuel]]; [lia|lia|].
  assert (size = -1 \/ size = -2 \/ size = -3 \/ size = -4 \/ size = -5 \/ size = -6 \/ size = -7) as C by lia.
  destruct C as [->|[->|[->|[->|[->|[->| ->]]]]]]; eexists; (split; [unfold toBinaryString; cbn [bytes_of bits_of bind aget map nth_error fst snd]; reflexivity|reflexivity]).
Qed.
Lemma toString_ok bytes n : (n <= length bytes)%nat -> toString (map Some bytes) n = Ok (firstn n bytes).
Proof.
  intros H. unfold toString. assert (G : forall m i, (i + m <= length bytes)%nat ->
    for_up i m (fun i ss => do c <- aget (map Some bytes) i; Ok (ss ++ [c])) (firstn i bytes) = Ok (firstn (i + m) bytes)).
  { induction m as [|m IH]; intros i Hi; cbn [for_up]; [now rewrite Nat.add_0_r|].
    destruct (nth_error bytes i) as [b|] eqn:Eb; [|apply nth_error_None in Eb; lia].
    assert (Eg : aget (map Some bytes) i = Ok b) by (unfold aget; now rewrite nth_error_map, Eb). rewrite Eg. cbn [bind].
    replace (firstn i bytes ++ [b]) with (firstn (S i) bytes).
    - rewrite IH by lia. f_equal. f_equal. lia.
    - clear - Eb. revert bytes Eb. induction i as [|i IH]; intros [|x l] E; cbn in *; try discriminate; [now injection E as ->|]. f_equal. now apply IH. }
  apply (G n 0%nat). lia.
Qed.

(** ** RNGBin *)
Lemma rngbin_ok maxsize r rnd : (0 < maxsize)%nat -> (exists x, rngbin_next maxsize r rnd = Ok x) <-> (r mod maxsize = 0)%nat.
Proof.
  intros H. unfold rngbin_next. destruct (Nat.eqb_spec maxsize 0); [lia|]. destruct (r mod maxsize)%nat as [|m].
  - split; [reflexivity|]. intros _. cbn. eauto.
  - split; [|lia]. intros [x E]. cbn [Nat.add for_up aset lset anew repeat of_opt bind] in E. rewrite Nat.add_1_r in E. cbn [for_up aset lset of_opt bind] in E. discriminate.
Qed.

(** ** RNG *)
Lemma digits_next_ok g v key size : (0 < size)%nat -> (KEY_SIZE <= length key)%nat -> inc_val g = Some v -> 0 <= v ->
  exists g' ks rest, digits_next g key size = Ok (g', map Some ks ++ rest) /\ (length (map Some ks ++ rest) = length key)%nat /\ length ks = 4%nat /\
    inc_val g' = Some ((v + 1) mod 2 ^ 64) /\ be_value 0 ks = v mod 2 ^ 32 /\ Forall (fun c => 0 <= c < 256) ks.
Proof.
  intros Hs Hl E Hv. unfold digits_next. destruct (Nat.eqb_spec size 0); [lia|]. rewrite E.
  destruct key as [|a [|b [|c [|d rest]]]]; cbn [length KEY_SIZE] in Hl; unfold KEY_SIZE in *; try (cbn in Hl; lia).
  cbn [for_up Nat.sub aset lset of_opt bind]. eexists _, [byte_at v 3; byte_at v 2; byte_at v 1; byte_at v 0], rest. split; [reflexivity|].
  cbn [map app length]. splits; auto.
  - cbn [be_value]. unfold byte_at. cbn [Z.of_nat Pos.of_succ_nat Pos.succ]. change (256 ^ 0) with 1. change (256 ^ 1) with 256. change (256 ^ 2) with 65536. change (256 ^ 3) with 16777216. change (2 ^ 32) with 4294967296. lia.
  - repeat constructor; unfold byte_at; apply Z.mod_pos_bound; lia.
Qed.
Lemma digits_defined g v key size : inc_val g = Some v -> 0 <= v -> (0 < size)%nat -> (exists x, digits_next g key size = Ok x) <-> (4 <= length key)%nat.
Proof.
  intros E Hv Hs. split.
  - intros [x H]. unfold digits_next in H. destruct (Nat.eqb_spec size 0); [lia|]. rewrite E in H.
    destruct key as [|a [|b [|c [|d rest]]]]; try (cbn in H; discriminate). cbn [length]. lia.
  - intros Hl. destruct (digits_next_ok Hs Hl E Hv) as (g' & ks & rest & E1 & _). eauto.
Qed.
Lemma mod_add_pow v n : ((v + 1) mod 2 ^ 64 + n) mod 2 ^ 64 = (v + (1 + n)) mod 2 ^ 64.
Proof. rewrite Z.add_mod_idemp_l by lia. f_equal. lia. Qed.
Lemma digits_run_ok size : (0 < size)%nat -> forall n g v key, (KEY_SIZE <= length key)%nat -> inc_val g = Some v -> 0 <= v ->
  exists g' ks rest, digits_run (S n) g key size = Ok (g', map Some ks ++ rest) /\ length ks = 4%nat /\ be_value 0 ks = (v + Z.of_nat n) mod 2 ^ 32 /\ Forall (fun c => 0 <= c < 256) ks.
Proof.
  intros Hs. induction n as [|n IH]; intros g v key Hl E Hv.
  - destruct (digits_next_ok Hs Hl E Hv) as (g' & ks & rest & E1 & L & L4 & _ & BV & F). exists g', ks, rest. cbn [digits_run]. rewrite E1. cbn [bind fst snd]. splits; auto. rewrite Z.add_0_r. exact BV.
  - destruct (digits_next_ok Hs Hl E Hv) as (g' & ks & rest & E1 & L & L4 & E' & BV & F). cbn [digits_run]. rewrite E1. cbn [bind fst snd].
    destruct (IH g' ((v + 1) mod 2 ^ 64) (map Some ks ++ rest)) as (g2 & ks2 & rest2 & E2 & L2 & BV2 & F2); auto; [lia|apply Z.mod_pos_bound; lia|].
    exists g2, ks2, rest2. cbn [digits_run] in E2. splits; auto. rewrite BV2. rewrite <- (Z.mod_mod ((v + 1) mod 2 ^ 64 + Z.of_nat n) (2 ^ 32)) by lia.
    rewrite <- Z.add_mod_idemp_l by lia. assert (Q : forall x, (x mod 2 ^ 64) mod 2 ^ 32 = x mod 2 ^ 32).
    { intros x. symmetry. apply Znumtheory.Zmod_div_mod; try lia. exists (2 ^ 32). reflexivity. }
    rewrite Q, Z.add_mod_idemp_l, Z.mod_mod by lia. f_equal. lia.
Qed.

(** ** The letters *)
Lemma nth_split_at (s : list Z) i c : nth_error s i = Some c -> exists p r, s = p ++ c :: r /\ length p = i.
Proof. intros H. apply nth_error_split in H as (p & r & -> & L). eauto. Qed.
Lemma carry_ok s : forall index, (index < length s)%nat -> letters s -> (forall j, (index < j < length s)%nat -> nth_error s j = Some 122) ->
  (exists p c zs, s = p ++ c :: zs /\ c < 122 /\ carry s index = Ok (p ++ (c + 1) :: zs, S (length p))) \/
  (carry s index = Ok (repeat 97 (S (length s)), S (length s))).
Proof.
  induction index as [|index IH]; intros Hi Hl Hz.
  - cbn [carry]. destruct (nth_error s 0) as [c|] eqn:E; [|apply nth_error_None in E; lia]. cbn [of_opt bind].
    destruct (nth_split_at E) as (p & r & -> & Lp). destruct Hl as [_ Hl]. rewrite Forall_forall in Hl. pose proof (Hl c ltac:(apply in_or_app; right; now left)) as Hc.
    destruct (Z.eqb_spec c 122); cbn [negb]; [right; reflexivity|]. left. exists p, c, r. splits; auto; try lia. rewrite (lset_app_at _ _ _ (eq_sym Lp)). cbn [of_opt bind]. do 3 f_equal. lia.
  - cbn [carry]. destruct (nth_error s (S index)) as [c|] eqn:E; [|apply nth_error_None in E; lia]. cbn [of_opt bind].
    destruct (Z.eqb_spec c 122) as [->|]; cbn [negb].
    + apply IH; auto; [lia|]. intros j Hj. destruct (Nat.eq_dec j (S index)) as [->|]; [exact E|]. apply Hz. lia.
    + destruct (nth_split_at E) as (p & r & -> & Lp). destruct Hl as [_ Hl]. rewrite Forall_forall in Hl. pose proof (Hl c ltac:(apply in_or_app; right; now left)) as Hc.
      left. exists p, c, r. splits; auto; try lia. rewrite (lset_app_at _ _ _ (eq_sym Lp)). cbn [of_opt bind]. do 3 f_equal. lia.
Qed.
Lemma set_a_from : forall m p r, length r = m -> for_up (length p) m (fun i s => of_opt (lset s i 97)) (p ++ r) = Ok (p ++ repeat 97 m).
Proof.
  induction m as [|m IH]; intros p r L; destruct r as [|x r]; cbn [length] in L; try lia; cbn [for_up repeat]; [reflexivity|].
  rewrite lset_app. cbn [of_opt bind]. change (p ++ 97 :: r) with (p ++ [97] ++ r). rewrite app_assoc. replace (S (length p)) with (length (p ++ [97])) by (rewrite app_length; cbn; lia).
  rewrite IH by lia. now rewrite <- app_assoc.
Qed.
Lemma lexlt_app p s t : lexlt s t -> lexlt (p ++ s) (p ++ t).
Proof. induction p as [|x p IH]; cbn; auto. Qed.
Lemma last_split (s : list Z) : s <> [] -> exists p c, s = p ++ [c] /\ last_of s = Ok c.
Proof.
  intros H. destruct (exists_last H) as (p & c & ->). exists p, c. split; auto. unfold last_of. rewrite app_length. cbn [length]. replace (length p + 1 - 1)%nat with (length p) by lia.
  rewrite nth_error_app2 by lia. now rewrite Nat.sub_diag.
Qed.
Lemma letters_app p r : letters (p ++ r) -> Forall (fun c => 97 <= c <= 122) p /\ Forall (fun c => 97 <= c <= 122) r.
Proof. intros [_ H]. now apply Forall_app in H. Qed.
Lemma next_step s : letters s -> (length s <> 1%nat \/ s <> [122]) -> forall c, last_of s = Ok c ->
  exists t, (if c =? 122 then do r <- carry s (length s - 2); set_a (fst r) (snd r) else of_opt (lset s (length s - 1) (c + 1))) = Ok t /\ letters t /\ before s t.
Proof.
  intros Hl Hn c Ec. destruct (last_split (proj1 Hl)) as (p & c' & -> & E). rewrite Ec in E. injection E as <-. destruct (letters_app Hl) as [Fp Fc]. inversion Fc as [|? ? Hc _]; subst.
  rewrite app_length in *. cbn [length] in *. destruct (Z.eqb_spec c 122) as [->|N].
  - assert (P1 : (1 <= length p)%nat). { destruct p; cbn [length app] in *; [destruct Hn as [Hn|Hn]; contradiction|lia]. }
    destruct (@carry_ok (p ++ [122]) (length p + 1 - 2)) as [(q & d & zs & Es & Hd & ->)| ->]; auto.
    { rewrite app_length. cbn. lia. }
    { intros j Hj. rewrite app_length in Hj. cbn [length] in Hj. assert (j = length p) by lia. subst j. rewrite nth_error_app2 by lia. now rewrite Nat.sub_diag. }
    + cbn [bind fst snd]. unfold set_a. replace (S (length q)) with (length (q ++ [d + 1])) by (rewrite app_length; cbn; lia).
      change (q ++ d + 1 :: zs) with (q ++ [d + 1] ++ zs). rewrite app_assoc. rewrite set_a_from by (rewrite !app_length; lia).
      rewrite !app_length. cbn [length]. replace (length q + 1 + length zs - (length q + 1))%nat with (length zs) by lia.
      eexists. split; [reflexivity|]. rewrite Es in Hl. destruct (letters_app Hl) as [Fq Fd]. inversion Fd as [|? ? Hd' Fz]; subst.
      split; [split|].
      * rewrite <- app_assoc. destruct q; discriminate.
      * rewrite <- app_assoc. apply Forall_app. split; auto. cbn [app]. constructor; [lia|]. apply Forall_forall. intros x Hx. apply repeat_spec in Hx. lia.
      * right. rewrite Es. rewrite !app_length, repeat_length. cbn [length]. split; [lia|]. rewrite <- app_assoc. apply lexlt_app. cbn. left. lia.
    + cbn [bind fst snd]. unfold set_a. rewrite repeat_length. replace (S (length (p ++ [122%Z])) - S (length (p ++ [122%Z])))%nat with 0%nat by lia. cbn [for_up].
      eexists. split; [reflexivity|]. split; [split; [discriminate|]|].
      * apply Forall_forall. intros x Hx. apply repeat_spec in Hx. lia.
      * left. rewrite repeat_length. lia.
  - replace (length p + 1 - 1)%nat with (length p) by lia. rewrite lset_app. cbn [of_opt]. eexists. split; [reflexivity|]. split; [split|].
    + destruct p; discriminate.
    + apply Forall_app. split; auto. constructor; [lia|constructor].
    + right. rewrite !app_length. split; [reflexivity|]. apply lexlt_app. cbn. lia.
Qed.
Lemma next_string_ok s : letters s -> exists t, next_string s = Ok t /\ letters t /\ before s t.
Proof.
  intros Hl. unfold next_string. destruct (last_split (proj1 Hl)) as (p & c & Es & Ec). rewrite Ec. cbn [bind].
  destruct (Nat.eqb_spec (length s) 1) as [L1|L1]; cbn [andb].
  - destruct (Z.eqb_spec c 122) as [->|N].
    + exists [98; 98]. splits; auto; [repeat constructor; try lia; discriminate|]. left. rewrite L1. cbn. lia.
    + rewrite Ec. cbn [bind]. apply next_step; auto. right. intros ->. cbn in Ec. congruence.
  - rewrite Ec. cbn [bind]. apply next_step; auto.
Qed.

(** ** PersistEmulation *)
Lemma pe_ok h : forall acc, pe_run (acc mod 2 ^ 32) h = map (fun x => x mod 2 ^ 32) (written acc h).
Proof.
  induction h as [|[n|] h IH]; intros acc; cbn [pe_run pe_step written map]; [reflexivity| |].
  - rewrite Z.add_mod_idemp_l by lia. apply IH.
  - f_equal. apply (IH 0).
Qed.
