(** C29-C31, C57, C58: simplePSkiplist (pskiplists/simplePSkiplist.hpp) and its generator (utils/Random.hpp). *)
From Verif Require Import Base MapSpec SkipModel SkipSpec RandomModel RandomProofs SkipMain.
Open Scope nat_scope.

(** * C29 *)

(** Any history of inserts with any random levels; each insert reports whether its key was new. *)
Theorem C29_simple_map : forall (V : Type) (maxl : nat) (minkey : Z) (v0 : V) (os : list (Z * V * nat)),
  2 <= maxl -> Forall (fun o => snd o < maxl) os ->
  (forall k v r os', os = (k, v, r) :: os' -> k <> minkey) ->
  exists s, s_run maxl (s_new maxl minkey v0) (map (@put_op V) os) = Ok s /\
    (forall k, search s k = Ok (puts os k)) /\
    forall k v r, r < maxl -> (os = [] -> k <> minkey) ->
      exists s' b, insert maxl s k v r = Ok (s', b) /\ (b = true <-> puts os k = None).
Proof. exact skip_map. Qed.
Print Assumptions C29_simple_map.

(** The same with the levels drawn by the member generator, whatever its seed. *)
Theorem C29_simple_seeded : forall (V : Type) (maxl : nat) (minkey : Z) (v0 : V) (seed : Z) (l : list (Z * V)),
  2 <= maxl -> (Z.of_nat maxl < 2 ^ 31)%Z -> Forall (fun e => fst e <> minkey) l ->
  exists s, seeded maxl (rnd_new seed) (s_new maxl minkey v0) l = Ok s /\
    forall k, search s k = Ok (m_run (map (fun e => OpInsert (fst e) (snd e)) l) k).
Proof. exact skip_seeded. Qed.
Print Assumptions C29_simple_seeded.

Example C29_case : let os := [(5, 50, 3); (1, 10, 0); (9, 90, 4); (5, 51, 2); (-3, 30, 1)]%Z in
  Forall (fun o => snd o < 5) (map (fun o => (fst o, Z.to_nat (snd o))) os) /\
  (do s <- s_run 5 (s_new 5 (-100)%Z 0%Z) (map (fun o => SIns (fst (fst o)) (snd (fst o)) (Z.to_nat (snd o))) os);
   do a <- search s 5%Z; do b <- search s (-3)%Z; do c <- search s 6%Z; do d <- insert 5 s 9%Z 0%Z 1; Ok (a, b, c, snd d))
  = Ok (Some 51%Z, Some 30%Z, None, false).
Proof. cbv zeta. split; [repeat constructor|vm_compute; reflexivity]. Qed.

Example C29_seeded_case :
  (do s <- seeded 5 (rnd_new 12345) (s_new 5 (-100)%Z 0%Z) [(5, 50); (1, 10); (9, 90); (5, 51)]%Z;
   do a <- search s 5%Z; do b <- search s 2%Z; Ok (slevel s, a, b)) = Ok (4, Some 51%Z, None).
Proof. vm_compute. reflexivity. Qed.

(** With a single level every insert raises the height to 1, and the next access reads forward[1]. *)
Theorem C29_one_level_refuted : exists os : list (Z * Z * nat), puts os 7%Z = Some 70%Z /\
  (do s <- s_run 1 (s_new 1 (-100)%Z 0%Z) (map (@put_op Z) os); search s 7%Z) = UB.
Proof. exists [(7%Z, 70%Z, 0)]. vm_compute. auto. Qed.
Print Assumptions C29_one_level_refuted.

(** * C30 *)

(** MIN_KEY inserted into an empty list is taken for a duplicate of the head. *)
Theorem C30_refuted : exists (minkey v : Z), puts [(minkey, v, 1)] minkey = Some v /\
  (do x <- insert 5 (s_new 5 minkey 0%Z) minkey v 1; do a <- search (fst x) minkey; Ok (snd x, a)) = Ok (false, None).
Proof. exists (-2147483648)%Z, 7%Z. vm_compute. auto. Qed.
Print Assumptions C30_refuted.

(** Every key is found again, MIN_KEY included, unless MIN_KEY is the very first key. *)
Theorem C30_simple_any_key_partial : forall (V : Type) (maxl : nat) (minkey : Z) (v0 : V) (os : list (Z * V * nat)) k v r,
  2 <= maxl -> Forall (fun o => snd o < maxl) (os ++ [(k, v, r)]) ->
  (forall k1 v1 r1 os', os ++ [(k, v, r)] = (k1, v1, r1) :: os' -> k1 <> minkey) ->
  exists s, s_run maxl (s_new maxl minkey v0) (map (@put_op V) (os ++ [(k, v, r)])) = Ok s /\ search s k = Ok (Some v).
Proof.
  intros V maxl minkey v0 os k v r HM F K. destruct (@skip_map V maxl minkey v0 _ HM F K) as (s & E & S & _). exists s.
  split; [exact E|]. rewrite S, puts_snoc. unfold m_put. now rewrite Z.eqb_refl.
Qed.
Print Assumptions C30_simple_any_key_partial.

Example C30_case :
  (do s <- s_run 5 (s_new 5 (-128)%Z 0%Z) [SIns 4 40 2; SIns (-128) 7 3]%Z; search s (-128)%Z) = Ok (Some 7%Z).
Proof. vm_compute. reflexivity. Qed.

(** * C31 *)

(** An insert cut off after any number of its stores leaves the old entries, or those and the new one,
    in every list reached by inserts and earlier power failures. *)
Theorem C31_simple_crash : forall (V : Type) (maxl : nat) (minkey : Z) (v0 : V) (os : list (sop V)) s,
  2 <= maxl -> Forall (fun o => op_rnd o < maxl) os -> Forall (fun o => op_key o <> minkey) os ->
  s_run maxl (s_new maxl minkey v0) os = Ok s -> forall k v r, r < maxl -> k <> minkey ->
  (exists s' b, insert maxl s k v r = Ok (s', b) /\ (b = true <-> search s k = Ok None)) /\
  forall n, exists s', s_step maxl s (SCrash k v r n) = Ok s' /\
    ((forall x, search s' x = search s x) \/ (forall x, search s' x = if (x =? k)%Z then Ok (Some v) else search s x)).
Proof. exact skip_next. Qed.
Print Assumptions C31_simple_crash.

(** Whole histories: no power failure makes a later operation fail, and what is found is the result of
    the completed inserts and of some of the interrupted ones. *)
Theorem C31_simple_history : forall (V : Type) (maxl : nat) (minkey : Z) (v0 : V) (os : list (sop V)),
  2 <= maxl -> Forall (fun o => op_rnd o < maxl) os -> Forall (fun o => op_key o <> minkey) os ->
  exists s m, s_run maxl (s_new maxl minkey v0) os = Ok s /\ may_leave (@m_empty V) os m /\ forall k, search s k = Ok (m k).
Proof. exact skip_history. Qed.
Print Assumptions C31_simple_history.

(** The three outcomes of a cut off insert: not linked, linked on level 0 only, complete. *)
Example C31_case : let pre := [SIns 5 50 3; SCrash 7 70 4 3; SIns 9 90 1]%Z in
  let look n := do s <- s_run 5 (s_new 5 (-100)%Z 0%Z) (pre ++ [SCrash 6%Z 60%Z 2 n]);
                do a <- search s 6%Z; do b <- search s 7%Z; do c <- search s 5%Z; Ok (a, b, c) in
  look 1 = Ok (None, None, Some 50%Z) /\ look 3 = Ok (Some 60%Z, None, Some 50%Z) /\ look 100 = Ok (Some 60%Z, None, Some 50%Z).
Proof. vm_compute. auto. Qed.

(** * C57 *)

(** printList: the count is the number of entries, the bottom level lists the map, every level is
    ascending and contained in the one below. *)
Theorem C57_simple_print : forall (V : Type) (maxl : nat) (minkey : Z) (v0 : V) (os : list (Z * V * nat)),
  2 <= maxl -> Forall (fun o => snd o < maxl) os ->
  (forall k v r os', os = (k, v, r) :: os' -> k <> minkey) ->
  exists s rows bottom, s_run maxl (s_new maxl minkey v0) (map (@put_op V) os) = Ok s /\
    print_list s = Ok (length bottom, rows) /\ last rows [] = bottom /\ lists (puts os) bottom /\
    (forall r, In r rows -> StronglySorted Z.lt (map fst r)) /\
    (forall i a b, nth_error rows i = Some a -> nth_error rows (S i) = Some b -> incl a b).
Proof. exact skip_print. Qed.
Print Assumptions C57_simple_print.

Example C57_case :
  (do s <- s_run 5 (s_new 5 (-100)%Z 0%Z) [SIns 5 50 3; SIns 1 10 0; SIns 9 90 2; SIns 5 51 2]%Z; print_list s)
  = Ok (3, [[]; [(5, 51)]; [(5, 51); (9, 90)]; [(1, 10); (5, 51); (9, 90)]]%Z).
Proof. vm_compute. reflexivity. Qed.

(** A power failure before the last store of an insert leaves the count one short. *)
Theorem C57_crash_count_refuted : exists os : list (sop Z), Forall (fun o => op_rnd o < 5) os /\
  (do s <- s_run 5 (s_new 5 (-100)%Z 0%Z) os; do p <- print_list s; Ok (fst p, last (snd p) [])) = Ok (1, [(1, 10); (5, 50)]%Z).
Proof. exists [SIns 5 50 3; SCrash 1 10 1 3]%Z. split; [repeat constructor|vm_compute; reflexivity]. Qed.
Print Assumptions C57_crash_count_refuted.

(** * C58 *)

(** The seed stays in 1 .. 2^31-2 and is multiplied by 16807 modulo 2^31-1. *)
Theorem C58_random_next : forall s : Z,
  (1 <= rnd_new s < 2147483647)%Z /\
  ((1 <= s < 2147483647)%Z -> rnd_next s = ((16807 * s) mod 2147483647)%Z /\ (1 <= rnd_next s < 2147483647)%Z).
Proof. intros s. split; [exact (rnd_new_range s)|exact (@rnd_next_spec s)]. Qed.
Print Assumptions C58_random_next.

Theorem C58_random_uniform : forall s n : Z, (1 <= s < 2147483647)%Z -> (0 < n)%Z ->
  exists s' x, rnd_uniform s n = Ok (s', x) /\ (1 <= s' < 2147483647)%Z /\ (0 <= x < n)%Z /\ x = (s' mod n)%Z.
Proof. exact rnd_uniform_spec. Qed.
Print Assumptions C58_random_uniform.

Theorem C58_random_one_in : forall s n : Z, (1 <= s < 2147483647)%Z -> (0 < n)%Z ->
  exists s' b, rnd_one_in s n = Ok (s', b) /\ (1 <= s' < 2147483647)%Z /\ (b = true <-> (n | s')%Z).
Proof. exact rnd_one_in_spec. Qed.
Print Assumptions C58_random_one_in.

Theorem C58_random_skewed : forall s m : Z, (1 <= s < 2147483647)%Z -> (0 <= m < 31)%Z ->
  exists s' x, rnd_skewed s m = Ok (s', x) /\ (1 <= s' < 2147483647)%Z /\ (0 <= x < 2 ^ m)%Z.
Proof. exact rnd_skewed_spec. Qed.
Print Assumptions C58_random_skewed.

(** The minimal-standard generator: the 10000th value after seed 1 is 1043618065. *)
Example C58_case : N.iter 10000 rnd_next (rnd_new 1) = 1043618065%Z /\ rnd_uniform (rnd_new 0) 5 = Ok (16807%Z, 2%Z) /\
  rnd_new 2147483648 = 1%Z /\ rnd_skewed (rnd_new 7) 4 = rnd_skewed 7 4.
Proof. vm_compute. auto. Qed.
