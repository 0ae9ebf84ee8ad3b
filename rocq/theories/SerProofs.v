(** Round trip of the serialisation. *)
From Verif Require Import Base SerModel.
Open Scope Z_scope.
Unset Implicit Arguments.

(** Values representable in C++: integers within the range of their type, bytes, lengths that fit
    std::size_t. *)
Definition int_ok (w : nat) (s : bool) (z : Z) : Prop :=
  if s then - 2 ^ (8 * Z.of_nat w - 1) <= z < 2 ^ (8 * Z.of_nat w - 1) else 0 <= z < 2 ^ (8 * Z.of_nat w).
Fixpoint ok (t : ty) : den t -> Prop :=
  match t return den t -> Prop with
  | TInt w s => int_ok w s
  | TStr => fun s => Z.of_nat (length s) < 2 ^ 64 /\ Forall (fun c => 0 <= c < 256) s
  | TVec t => fun v => Z.of_nat (length v) < 2 ^ 64 /\ Forall (ok t) v
  | TTup ts => oks ts
  end
with oks (ts : tys) : dens ts -> Prop :=
  match ts return dens ts -> Prop with
  | TOne t => ok t
  | TMore t r => fun p => ok t (fst p) /\ oks r (snd p)
  end.

Scheme ty_mut := Induction for ty Sort Prop with tys_mut := Induction for tys Sort Prop.
Combined Scheme ty_tys_ind from ty_mut, tys_mut.

Lemma bytes_length w : forall z, length (bytes w z) = w.
Proof. induction w as [|w IH]; intros z; cbn [bytes length]; auto. Qed.
Lemma unbytes_bytes w : forall z, 0 <= z < 2 ^ (8 * Z.of_nat w) -> unbytes (bytes w z) = z.
Proof.
  induction w as [|w IH]; intros z H; cbn [bytes unbytes].
  - change (2 ^ (8 * Z.of_nat 0)) with 1 in H. lia.
  - replace (8 * Z.of_nat (S w)) with (8 + 8 * Z.of_nat w) in H by lia. rewrite Z.pow_add_r in H by lia.
    change (2 ^ 8) with 256 in H. rewrite IH; [lia|]. split; [apply Z.div_pos; lia|]. apply Z.div_lt_upper_bound; lia.
Qed.
Lemma image_length w z : length (image w z) = w.
Proof. apply bytes_length. Qed.
Lemma value_image w s z : int_ok w s z -> value w s (image w z) = z.
Proof.
  intros H. unfold value, image. assert (P : 0 < 2 ^ (8 * Z.of_nat w)) by (apply Z.pow_pos_nonneg; lia).
  rewrite unbytes_bytes by (apply Z.mod_pos_bound; lia). unfold int_ok in H. destruct s; cbn [andb].
  - assert (E : 2 ^ (8 * Z.of_nat w) = 2 * 2 ^ (8 * Z.of_nat w - 1) \/ w = O).
    { destruct w as [|w]; auto. left. rewrite <- Z.pow_succ_r by lia. f_equal. lia. }
    destruct E as [E| ->]; [|cbn in H; lia]. rewrite E in *. set (q := 2 ^ (8 * Z.of_nat w - 1)) in *.
    destruct (Z_lt_le_dec z 0).
    + replace (z mod (2 * q)) with (z + 2 * q) by (apply Z.mod_unique with (q := -1); lia).
      destruct (Z.leb_spec (2 * q) (2 * (z + 2 * q))); lia.
    + rewrite Z.mod_small by lia. destruct (Z.leb_spec (2 * q) (2 * z)); lia.
  - now rewrite Z.mod_small.
Qed.

Lemma puts_ok : forall bs p q r, length q = length bs -> puts (p ++ q ++ r, length p) bs = Ok (p ++ bs ++ r, (length p + length bs)%nat).
Proof.
  induction bs as [|b bs IH]; intros p q r E; cbn [puts length].
  - destruct q; [|discriminate]. cbn [app]. do 2 f_equal. lia.
  - destruct q as [|x q]; [discriminate|]. cbn [length] in E. unfold put. cbn [fst snd app]. rewrite lset_app. cbn [of_opt bind].
    replace (p ++ b :: q ++ r) with ((p ++ [b]) ++ q ++ r) by (rewrite <- app_assoc; reflexivity).
    replace (S (length p)) with (length (p ++ [b])) by (rewrite app_length; cbn [length]; lia).
    rewrite IH by lia. rewrite <- app_assoc. cbn [app]. do 2 f_equal. rewrite app_length. cbn [length]. lia.
Qed.

(** What the writer [f] of a value of size [n] does: it overwrites exactly the next [n] bytes with
    bytes from which the reader [g] gets the value back. *)
Definition good {A} (f : out -> A -> res out) (g : list Z -> res (A * list Z)) (n : nat) (v : A) : Prop :=
  exists enc, length enc = n /\
    (forall p q r, length q = n -> f (p ++ q ++ r, length p) v = Ok (p ++ enc ++ r, (length p + n)%nat)) /\
    (forall suffix, g (enc ++ suffix) = Ok (v, suffix)).

Lemma good_int w s z : int_ok w s z -> good (fun o z => puts o (image w z)) (read_int w s) w z.
Proof.
  intros H. exists (image w z). split; [apply image_length|]. split.
  - intros p q r E. rewrite puts_ok by now rewrite image_length. now rewrite image_length.
  - intros sf. unfold read_int, takes. destruct (Nat.leb_spec w (length (image w z ++ sf))) as [|L]; [|rewrite app_length, image_length in L; lia].
    cbn [bind fst snd]. rewrite <- (image_length w z) at 2 4. rewrite firstn_app, Nat.sub_diag, firstn_all, skipn_app, Nat.sub_diag, skipn_all.
    cbn [firstn skipn app]. rewrite app_nil_r. now rewrite value_image.
Qed.

Fixpoint sum (l : list nat) : nat := match l with [] => 0%nat | x :: r => (x + sum r)%nat end.

Lemma good_list {A} (f : out -> A -> res out) g (size : A -> nat) v : Forall (fun x => good f g (size x) x) v ->
  good (each f) (repeat_read (length v) g) (sum (map size v)) v.
Proof.
  induction v as [|x v IH]; intros H; cbn [map sum length].
  - exists []. split; [reflexivity|]. split.
    + intros p q r E. destruct q; [|discriminate]. cbn [each app]. do 2 f_equal. lia.
    + intros sf. reflexivity.
  - inversion H as [|? ? (e1 & L1 & W1 & R1) H2]; subst. destruct (IH H2) as (e2 & L2 & W2 & R2).
    exists (e1 ++ e2). split; [rewrite app_length; lia|]. split.
    + intros p q r E. destruct (@split_at _ q (size x)) as (q1 & q2 & -> & Lq); [lia|]. rewrite app_length in E.
      cbn [each]. rewrite <- app_assoc. rewrite W1 by assumption. cbn [bind].
      replace (p ++ e1 ++ q2 ++ r) with ((p ++ e1) ++ q2 ++ r) by now rewrite <- app_assoc.
      replace (length p + size x)%nat with (length (p ++ e1)) by (rewrite app_length; lia).
      rewrite W2 by lia. rewrite <- !app_assoc. do 2 f_equal. rewrite app_length. lia.
    + intros sf. cbn [repeat_read]. rewrite <- app_assoc, R1. cbn [bind fst snd]. now rewrite R2.
Qed.

Lemma good_pre {A} (f : out -> list A -> res out) (g : nat -> list Z -> res (list A * list Z)) n v m :
  Z.of_nat (length v) < 2 ^ 64 -> good f (g (length v)) n v -> m = (size_bytes + n)%nat ->
  good (fun o v => do o' <- puts o (image size_bytes (Z.of_nat (length v))); f o' v)
       (fun l => do k <- read_int size_bytes false l; g (Z.to_nat (fst k)) (snd k)) m v.
Proof.
  intros HL (e2 & L2 & W2 & R2) ->.
  assert (I : int_ok size_bytes false (Z.of_nat (length v))) by (unfold int_ok; change (8 * Z.of_nat size_bytes) with 64; lia).
  destruct (good_int _ _ _ I) as (e1 & L1 & W1 & R1).
  exists (e1 ++ e2). split; [rewrite app_length; lia|]. split.
  - intros p q r E. destruct (@split_at _ q (size_bytes)) as (q1 & q2 & -> & Lq); [lia|]. rewrite app_length in E.
    rewrite <- app_assoc. rewrite W1 by assumption. cbn [bind].
    replace (p ++ e1 ++ q2 ++ r) with ((p ++ e1) ++ q2 ++ r) by now rewrite <- app_assoc.
    replace (length p + size_bytes)%nat with (length (p ++ e1)) by (rewrite app_length; lia).
    rewrite W2 by lia. rewrite <- !app_assoc. do 2 f_equal. rewrite app_length. lia.
  - intros sf. rewrite <- app_assoc, R1. cbn [bind fst snd]. rewrite Nat2Z.id. apply R2.
Qed.

Lemma sum_ones {A} (l : list A) : sum (map (fun _ => 1%nat) l) = length l.
Proof. induction l; cbn [map sum length]; lia. Qed.
Lemma fold_sum {A} (f : A -> nat) l : forall a, fold_left (fun acc x => (acc + f x)%nat) l a = (a + sum (map f l))%nat.
Proof. induction l as [|x l IH]; intros a; cbn [fold_left map sum]; [lia|]. rewrite IH. lia. Qed.

Lemma good_all : (forall t v, ok t v -> good (serializer t) (deserialize t) (get_size t v) v) /\
  (forall ts v, oks ts v -> good (serializers ts) (deserializes ts) (get_sizes ts v) v).
Proof.
  apply ty_tys_ind.
  - intros w s z H. apply (good_int w s z H).
  - intros v [HL H].
    destruct (good_pre (each (fun o c => puts o (image 1 c))) (fun n => repeat_read n (read_int 1 false)) (length v) v (size_bytes + length v) HL) as (e & L & W & R); [|reflexivity|].
    { pose proof (good_list (fun o c => puts o (image 1 c)) (read_int 1 false) (fun _ => 1%nat) v) as G. rewrite sum_ones in G. apply G. eapply Forall_impl; [|exact H]. intros c Hc. apply good_int.
      unfold int_ok. change (2 ^ (8 * Z.of_nat 1)) with 256. exact Hc. }
    exists e. split; [exact L|]. split; [exact W|]. intros sf. specialize (R sf). cbn [deserialize].
    destruct (read_int size_bytes false (e ++ sf)) as [[k rest]| |]; cbn [bind fst snd] in *; try discriminate.
    destruct (Z.eqb_spec k 0) as [->|]; [|exact R]. cbn [Z.to_nat repeat_read] in R. exact R.
  - intros t IH v [HL H]. cbn [get_size]. rewrite fold_sum.
    apply (good_pre (each (serializer t)) (fun n => repeat_read n (deserialize t)) (sum (map (get_size t) v))); [exact HL| |reflexivity].
    apply good_list. eapply Forall_impl; [|exact H]. exact IH.
  - intros ts IH v H. exact (IH v H).
  - intros t IH v H. exact (IH v H).
  - intros t IH1 ts IH2 [v1 v2] [H1 H2]. cbn [fst snd] in *. destruct (IH1 v1 H1) as (e1 & L1 & W1 & R1). destruct (IH2 v2 H2) as (e2 & L2 & W2 & R2).
    cbn [get_sizes fst snd]. exists (e1 ++ e2). split; [rewrite app_length; lia|]. split.
    + intros p q r E. destruct (@split_at _ q (get_size t v1)) as (q1 & q2 & -> & Lq); [lia|]. rewrite app_length in E.
      cbn [serializers fst snd]. rewrite <- app_assoc. rewrite W1 by assumption. cbn [bind].
      replace (p ++ e1 ++ q2 ++ r) with ((p ++ e1) ++ q2 ++ r) by now rewrite <- app_assoc.
      replace (length p + get_size t v1)%nat with (length (p ++ e1)) by (rewrite app_length; lia).
      rewrite W2 by lia. rewrite <- !app_assoc. do 2 f_equal. rewrite app_length. lia.
    + intros sf. cbn [deserializes]. rewrite <- app_assoc, R1. cbn [bind fst snd]. now rewrite R2.
Qed.

Lemma round_trip t (v : den t) buf : ok t v ->
  exists enc, serialize t v buf = Ok (buf ++ enc) /\ length enc = get_size t v /\
    forall suffix, deserialize t (enc ++ suffix) = Ok (v, suffix).
Proof.
  intros H. destruct (proj1 good_all t v H) as (enc & L & W & R). exists enc. split; [|auto].
  unfold serialize. specialize (W buf (repeat 0 (get_size t v)) [] (repeat_length _ _)). rewrite !app_nil_r in W. rewrite W.
  cbn [bind fst snd]. now rewrite Nat.eqb_refl.
Qed.

(** Two values written one after the other into the same buffer. *)
Lemma two_values t1 t2 (v1 : den t1) (v2 : den t2) : ok t1 v1 -> ok t2 v2 ->
  exists b1 b2, serialize t1 v1 [] = Ok b1 /\ serialize t2 v2 b1 = Ok b2 /\
    (do x <- deserialize t1 b2; do y <- deserialize t2 (snd x); Ok (fst x, fst y, snd y)) = Ok (v1, v2, []).
Proof.
  intros H1 H2. destruct (round_trip t1 v1 [] H1) as (e1 & S1 & _ & R1). destruct (round_trip t2 v2 e1 H2) as (e2 & S2 & _ & R2).
  exists e1, (e1 ++ e2). split; [exact S1|]. split; [exact S2|]. rewrite R1. cbn [bind fst snd].
  specialize (R2 []). rewrite app_nil_r in R2. rewrite R2. reflexivity.
Qed.
