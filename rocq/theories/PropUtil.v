(** C82-C87: helpers of PatriciaUtils.hpp and PersistEmulation.hpp, table descriptions. *)
From Verif Require Import Base PStrModel PUtilModel PUtilSpec PUtilProofs TabInfoModel TabInfoSpec TabInfoProofs.
Open Scope Z_scope.

(** * C82: reverse *)
(** For an integer type with [w] value bits, signed or not, and any [n] of it. *)
Theorem C82_reverse : forall signed w n b, (b <= w)%nat -> exists r, reverse signed w n b = Ok r /\ mirrored b n r.
Proof. exact reverse_ok. Qed.
Print Assumptions C82_reverse.
Theorem C82_involution : forall signed w n b, (b <= w)%nat ->
  (do r <- reverse signed w n b; reverse signed w r b) = Ok (n mod 2 ^ Z.of_nat b).
Proof. exact reverse_twice. Qed.
Print Assumptions C82_involution.
(** More bits than the type has: the assertion fails. *)
Theorem C82_assert : forall signed w n b, (w < b)%nat -> reverse signed w n b = UB.
Proof. intros signed w n b H. unfold reverse. apply Nat.ltb_lt in H. now rewrite H. Qed.
Print Assumptions C82_assert.
Example C82_ex : reverse false 8 177 8 = Ok 141 /\ reverse false 32 6 3 = Ok 3 /\ reverse true 31 (-2) 4 = Ok 7 /\ mirrored 3 6 3.
Proof.
  splits; try (vm_compute; reflexivity). split; [cbn; lia|]. intros i Hi. assert (i = 0 \/ i = 1 \/ i = 2) as [->|[->| ->]] by (cbn in Hi; lia); reflexivity.
Qed.

(** * C83: toBinaryString, for every size that is not negative and every buffer that has so many bits *)
Theorem C83_bits : forall bytes size fuel, Z.of_nat size < 2 ^ 31 -> (size <= 8 * length bytes)%nat -> (size / 8 < fuel)%nat ->
  exists out, toBinaryString fuel (map Some bytes) (Z.of_nat size) = Ok out /\ length out = size /\
    forall x, (x < size)%nat -> nth_error out x = Some (bit_at bytes x).
Proof. exact binary_ok. Qed.
Print Assumptions C83_bits.
(** Just below zero eight bits come out. *)
Theorem C83_negative : forall bytes size fuel, -7 <= size < 0 -> bytes <> [] -> (1 < fuel)%nat ->
  exists out, toBinaryString fuel (map Some bytes) size = Ok out /\ length out = 8%nat.
Proof. exact binary_negative. Qed.
Print Assumptions C83_negative.
Theorem C83_toString : forall bytes n, (n <= length bytes)%nat -> toString (map Some bytes) n = Ok (firstn n bytes).
Proof. exact toString_ok. Qed.
Print Assumptions C83_toString.
Example C83_ex : toBinaryString 9 [Some 160; Some 64] 11 = Ok [true; false; true; false; false; false; false; false; false; true; false] /\
  toBinaryString 9 [Some 160] 8 = Ok [true; false; true; false; false; false; false; false] /\ toBinaryString 9 [Some 160] 9 = UB /\
  bit_at [160; 64] 9 = true /\ toString [Some 104; Some 105] 2 = Ok [104; 105].
Proof. splits; vm_compute; reflexivity. Qed.

(** * C84: the generators write inside of the buffers *)
(** RNG::next ignores the size it is given (1 by default) and writes four bytes; RNGBin::next allocates one byte. *)
Theorem C84_refuted : exists g (key : arr Z), rng_new DIGITS = Ok g /\ length key = 1%nat /\ digits_next g key 1 = UB /\
  rngbin_next 2 1 (fun _ => 7) = UB.
Proof. exists (Rng DIGITS (Some 0) [97]), [None]. splits; vm_compute; reflexivity. Qed.
Print Assumptions C84_refuted.
(** Exactly when RNGBin::next is defined: if the length drawn is one.  RNG::next: if the buffer has four bytes, whatever [size] says. *)
Theorem C84_partial : (forall maxsize r rnd, (0 < maxsize)%nat -> (exists x, rngbin_next maxsize r rnd = Ok x) <-> (r mod maxsize = 0)%nat) /\
  (forall g v key size, inc_val g = Some v -> 0 <= v -> (0 < size)%nat -> (exists x, digits_next g key size = Ok x) <-> (4 <= length key)%nat).
Proof. split; [exact rngbin_ok|exact digits_defined]. Qed.
Print Assumptions C84_partial.
Example C84_ex : rngbin_next 2 4 (fun _ => 7) = Ok ([Some 7], 1%nat) /\
  (do g <- rng_new DIGITS; digits_run 3 g (anew 5) 4) = Ok (Rng DIGITS (Some 3) [97], [Some 0; Some 0; Some 0; Some 2; None]).
Proof. split; vm_compute; reflexivity. Qed.

(** * C85: incremental keys ascend *)
(** CHARACTERS: the constructor writes through a pointer it never assigned. *)
Theorem C85_refuted : rng_new CHARACTERS = UB.
Proof. reflexivity. Qed.
Print Assumptions C85_refuted.
(** Missing: the constructor for CHARACTERS, and keys of more than four letters.  DIGITS: key number [n], read as a big-endian
    number, is [n], and after 2^32 keys the first comes again.  CHARACTERS: the string after a string is
    longer or comes later alphabetically. *)
Theorem C85_partial :
  (forall n key size, (0 < size)%nat -> (4 <= length key)%nat -> exists g g' ks rest, rng_new DIGITS = Ok g /\
     digits_run (S n) g key size = Ok (g', map Some ks ++ rest) /\ length ks = 4%nat /\ Forall (fun c => 0 <= c < 256) ks /\
     be_value 0 ks = Z.of_nat n mod 2 ^ 32) /\
  (forall s, letters s -> exists t, next_string s = Ok t /\ letters t /\ before s t).
Proof.
  split; [|exact next_string_ok]. intros n key size Hs Hl. exists (Rng DIGITS (Some 0) [97]).
  destruct (@digits_run_ok size Hs n (Rng DIGITS (Some 0) [97]) 0 key Hl eq_refl (Z.le_refl 0)) as (g' & ks & rest & E & L & BV & F). exists g', ks, rest.
  splits; auto.
Qed.
Print Assumptions C85_partial.
(** abz -> aca, zz -> aaa, and z -> bb: the strings from aa to ba are skipped. *)
Example C85_ex : next_string [97; 98; 122] = Ok [97; 99; 97] /\ next_string [122; 122] = Ok [97; 97; 97] /\ next_string [122] = Ok [98; 98] /\
  letters [97; 98; 122] /\ (do r <- (do g <- rng_new DIGITS; digits_run 300 g (anew 4) 4); Ok (snd r)) = Ok [Some 0; Some 0; Some 1; Some 43].
Proof. splits; try (vm_compute; reflexivity). split; [discriminate|]. repeat constructor; lia. Qed.

(** * C86: bytes written *)
(** The counter has 32 bits. *)
Theorem C86_refuted : exists h, Forall (fun o => match o with PWrite n => 0 <= n < 2 ^ 32 | PGet => True end) h /\ pe_run 0 h <> written 0 h.
Proof. exists [PWrite (2 ^ 31); PWrite (2 ^ 31); PGet]. split; [repeat constructor; lia|]. vm_compute. discriminate. Qed.
Print Assumptions C86_refuted.
(** Missing: sums from 2^32 on.  Every answer is right modulo 2^32. *)
Theorem C86_partial : forall h, pe_run 0 h = map (fun x => x mod 2 ^ 32) (written 0 h).
Proof. intros h. exact (pe_ok h 0). Qed.
Print Assumptions C86_partial.
Theorem C86_exact : forall h, Forall (fun x => 0 <= x < 2 ^ 32) (written 0 h) -> pe_run 0 h = written 0 h.
Proof.
  intros h H. rewrite C86_partial. induction H as [|x l Hx _ IH]; [reflexivity|]. cbn [map]. rewrite IH, Z.mod_small; auto.
Qed.
Print Assumptions C86_exact.
Example C86_ex : pe_run 0 [PWrite 64; PWrite 8; PGet; PGet; PWrite 1; PGet] = [72; 0; 1] /\ Forall (fun x => 0 <= x < 2 ^ 32) (written 0 [PWrite 64; PWrite 8; PGet; PGet; PWrite 1; PGet]).
Proof. split; [vm_compute; reflexivity|]. cbn. repeat constructor; lia. Qed.

(** * C87: table descriptions *)
(** With fewer names than tuple elements the constructor of PTableInfo reads behind the list (VTableInfo throws); a name
    with a NUL character is cut and not found. *)
Theorem C87_refuted : (exists tup name sv, pinfo_new tup name sv = UB /\ vinfo_new tup name sv = Ok None) /\
  exists tup name sv nm t, In nm sv /\ pinfo_new tup name sv = Ok t /\ findColumnByName t nm = Ok (-1) /\ findColumnByName t [97] = Ok 0.
Proof.
  split; [exists [EInt; EString], [116], [[97]]; split; vm_compute; reflexivity|].
  exists [EInt], [116], [[97; 0; 98]], [97; 0; 98]. eexists. split; [now left|]. split; [vm_compute; reflexivity|]. split; vm_compute; reflexivity.
Qed.
Print Assumptions C87_refuted.
(** Missing: those two.  With the right number of names, none with a NUL: the name of the table, the number of columns, their
    names and types in order, and the search by name, also for descriptions made from a VTableInfo. *)
Theorem C87_partial : forall tup name sv, length sv = length tup -> ~ In 0 name -> (forall nm, In nm sv -> ~ In 0 nm) ->
  (exists t, pinfo_new tup name sv = Ok t /\ tableName t = Ok name /\ describes t (combine sv (map col_of tup))) /\
  exists v t, vinfo_new tup name sv = Ok (Some v) /\ pinfo_of v = Ok t /\ tableName t = Ok name /\ describes t (combine sv (map col_of tup)).
Proof. intros tup name sv L Hn Hs. rewrite <- col_types. split; [now apply pinfo_new_ok|now apply vinfo_ok]. Qed.
Print Assumptions C87_partial.
(** After setColumns the description is the new one. *)
Theorem C87_setColumns : forall t vec name, tableName t = Ok name -> plain vec ->
  exists t', setColumns t vec = Ok t' /\ tableName t' = Ok name /\ describes t' vec.
Proof. exact set_columns_ok. Qed.
Print Assumptions C87_setColumns.
(** The wrong number of names: VTableInfo throws; PTableInfo reads behind the list, or drops the rest of it. *)
Theorem C87_counts : forall tup name sv,
  (length sv <> length tup -> vinfo_new tup name sv = Ok None) /\
  ((length sv < length tup)%nat -> pinfo_new tup name sv = UB) /\
  ((length tup < length sv)%nat -> ~ In 0 name -> (forall nm, In nm sv -> ~ In 0 nm) ->
     exists t, pinfo_new tup name sv = Ok t /\ describes t (combine (firstn (length tup) sv) (map col_of tup))).
Proof. intros tup name sv. rewrite <- col_types. splits; [apply vinfo_throws|apply pinfo_few|apply pinfo_more]. Qed.
Print Assumptions C87_counts.
Example C87_ex : exists t, pinfo_new [EInt; EDouble; EString] [116; 97; 98] [[97]; [98; 99]; [97]] = Ok t /\
  tableName t = Ok [116; 97; 98] /\ map (findColumnByName t) [[97]; [98; 99]; [100]] = [Ok 0; Ok 1; Ok (-1)] /\
  numColumns t = 3%nat /\ option_map pctype (columnInfo t 2) = Some StringType /\ columnInfo t 3 = None /\ columnInfo t (-1) = None.
Proof. eexists. split; [vm_compute; reflexivity|]. splits; vm_compute; reflexivity. Qed.
