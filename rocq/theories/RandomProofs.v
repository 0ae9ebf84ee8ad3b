(** The generator is multiplication by 16807 modulo the prime 2^31 - 1. *)
From Coq Require Import Znumtheory.
From Verif Require Import Base RandomModel.
Open Scope Z_scope.

Lemma rnd_new_range s : 1 <= rnd_new s < rnd_M.
Proof.
  unfold rnd_new, rnd_M. set (x := Z.land (u32 s) 2147483647).
  assert (0 <= x < 2 ^ 31).
  { unfold x. change 2147483647 with (Z.ones 31). rewrite Z.land_ones by lia. apply Z.mod_pos_bound. lia. }
  destruct (Z.eqb_spec x 0); cbn [orb]; [lia|]. destruct (Z.eqb_spec x 2147483647); lia.
Qed.

Lemma rnd_next_spec s : 1 <= s < rnd_M -> rnd_next s = (16807 * s) mod rnd_M /\ 1 <= rnd_next s < rnd_M.
Proof.
  unfold rnd_M. intros H. set (p := s * 16807).
  assert (NZ : p mod 2147483647 <> 0).
  { intros E. apply Z.mod_divide in E; [|lia]. unfold p in E. rewrite Z.mul_comm in E. apply Z.gauss in E; [|reflexivity].
    destruct E as (c & E). assert (0 < c < 1) by nia. lia. }
  assert (E : rnd_next s = p mod 2147483647).
  { unfold rnd_next, rnd_M. fold p. assert (Hp : 0 <= p < 2 ^ 63) by (unfold p; lia).
    assert (u64 p = p) as -> by (apply Z.mod_small; lia).
    assert (EL : Z.land p 2147483647 = p mod 2 ^ 31) by (change 2147483647 with (Z.ones 31); apply Z.land_ones; lia).
    rewrite EL. rewrite Z.shiftr_div_pow2 by lia.
    set (q := p / 2 ^ 31). set (r := p mod 2 ^ 31).
    assert (D : p = 2 ^ 31 * q + r) by (apply Z.div_mod; lia).
    assert (Hr : 0 <= r < 2 ^ 31) by (apply Z.mod_pos_bound; lia).
    assert (Hq : 0 <= q < 16807) by (unfold p in *; nia).
    assert (u64 (q + r) = q + r) as -> by (apply Z.mod_small; lia).
    assert (u32 (q + r) = q + r) as -> by (apply Z.mod_small; lia).
    destruct (Z.ltb_spec 2147483647 (q + r)).
    - unfold u32. rewrite Z.mod_small by lia. apply Z.mod_unique with (q + 1); lia.
    - destruct (Z.eq_dec (q + r) 2147483647) as [X|X].
      + exfalso. apply NZ. rewrite D. replace (2 ^ 31 * q + r) with ((q + 1) * 2147483647) by lia. apply Z.mod_mul. lia.
      + apply Z.mod_unique with q; lia. }
  rewrite E. split; [unfold p; f_equal; lia|]. pose proof (Z.mod_pos_bound p 2147483647). lia.
Qed.

Lemma rnd_uniform_spec s n : 1 <= s < rnd_M -> 0 < n -> exists s' x, rnd_uniform s n = Ok (s', x) /\ 1 <= s' < rnd_M /\ 0 <= x < n /\ x = s' mod n.
Proof.
  intros H Hn. destruct (rnd_next_spec H) as [_ B]. unfold rnd_uniform. rewrite (proj2 (Z.eqb_neq _ _)) by lia.
  pose proof (Z.mod_pos_bound (rnd_next s) n Hn). pose proof (Z.mod_le (rnd_next s) n). unfold rnd_M in *.
  assert (u32 (rnd_next s mod n) = rnd_next s mod n) as -> by (apply Z.mod_small; lia).
  do 2 eexists. split; [reflexivity|]. lia.
Qed.

Lemma rnd_one_in_spec s n : 1 <= s < rnd_M -> 0 < n -> exists s' b, rnd_one_in s n = Ok (s', b) /\ 1 <= s' < rnd_M /\ (b = true <-> (n | s')).
Proof.
  intros H Hn. destruct (rnd_next_spec H) as [_ B]. unfold rnd_one_in. rewrite (proj2 (Z.eqb_neq _ _)) by lia.
  do 2 eexists. split; [reflexivity|]. split; [assumption|]. rewrite Z.eqb_eq. apply Z.mod_divide. lia.
Qed.

Lemma rnd_skewed_spec s m : 1 <= s < rnd_M -> 0 <= m < 31 -> exists s' x, rnd_skewed s m = Ok (s', x) /\ 1 <= s' < rnd_M /\ 0 <= x < 2 ^ m.
Proof.
  intros H Hm. unfold rnd_skewed. assert (u64 (m + 1) = m + 1) as -> by (apply Z.mod_small; lia).
  destruct (@rnd_uniform_spec s (m + 1) H) as (s1 & x1 & E1 & B1 & X1 & _); [lia|]. rewrite E1. cbn [bind fst snd].
  destruct (@rnd_uniform_spec s1 (2 ^ x1) B1) as (s2 & x2 & E2 & B2 & X2 & _); [apply Z.pow_pos_nonneg; lia|]. rewrite E2.
  do 2 eexists. split; [reflexivity|]. split; [assumption|]. assert (2 ^ x1 <= 2 ^ m) by (apply Z.pow_le_mono_r; lia). lia.
Qed.
