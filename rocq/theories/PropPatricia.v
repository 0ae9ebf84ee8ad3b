(** C37, C38 and C63: the Patricia trie. *)
From Verif Require Import Base TrieSpec PatModel PatSpec PatMain.
Open Scope nat_scope.

Definition nonzero (v : Z) : bool := negb (v =? 0)%Z.
(** A memory area of 64 bytes that starts with [k] *)
Definition area (k : list Z) : list Z := k ++ repeat 0%Z (64 - length k).
Definition ins (k : list Z) (v : Z) : pop Z := PIns (area k) (length k) v.
Definition del (k : list Z) : pop Z := PDel (area k) (length k).
Definition roomy (n : nat) : nat := 8 * n.

(** * C37 *)

(** setKey copies eight times as many bytes as it allocates: in an allocation of exactly the size asked for, every
    first insert is undefined. *)
Theorem C37_patricia_overflow : forall (V : Type) (truthy : V -> bool) buf len v, p_insert truthy (fun n => n) p_new buf len v = UB.
Proof.
  intros V truthy buf len v. unfold p_insert. destruct (Nat.eqb_spec len 0) as [E|E]; [reflexivity|]. cbn -[Nat.mul octets Nat.leb Nat.eqb].
  destruct (Nat.leb_spec (8 * len) 0) as [|_]; [lia|]. unfold check_bit. destruct (nth_error buf (0 / 8)) as [b|]; [|reflexivity]. cbn [of_opt bind].
  assert (X : ins_at truthy (fun n => n) (PN [] 0 None false None None) buf (8 * len) v = UB).
  { unfold ins_at. cbn [pklen]. destruct (Nat.eqb_spec 0 (8 * len)) as [|_]; [lia|]. cbn [bind]. unfold new_node. destruct (Nat.eqb_spec (8 * len) 0) as [|_]; [lia|].
    replace (8 * len <=? octets (8 * len)) with false by (symmetry; apply Nat.leb_gt; unfold octets; lia). rewrite andb_false_r. reflexivity. }
  destruct (_ =? _)%Z; rewrite X; reflexivity.
Qed.
Print Assumptions C37_patricia_overflow.
Theorem C37_patricia_refuted : exists os, Forall (po_ok nonzero 8) os /\ pm_run os [97]%Z = Some 1%Z /\ p_run nonzero (fun n => n) p_new os = UB.
Proof.
  exists [ins [97]%Z 1%Z]. splits; [|vm_compute; reflexivity|vm_compute; reflexivity].
  repeat (apply Forall_cons || apply Forall_nil); cbn [po_ok ins]; splits; try (vm_compute; reflexivity); try (cbn; lia). repeat (apply Forall_cons || apply Forall_nil); lia.
Qed.
Print Assumptions C37_patricia_refuted.

Ltac ops := repeat (apply Forall_cons || apply Forall_nil); cbn [po_ok ins del]; splits; try (vm_compute; reflexivity); try (cbn; lia); repeat (apply Forall_cons || apply Forall_nil); lia.

(** Where the allocator leaves enough room, two keys that part at the first bit of a byte make the bytes before it a
    key that is found, with a value that was never written; inserting it reads that value. *)
Theorem C37_patricia_lookup_refuted : exists os t, Forall (po_ok nonzero 8) os /\ Forall (@is_ins Z) os /\ p_run nonzero roomy p_new os = Ok t /\
  pm_run os [97]%Z = None /\ p_lookup t (area [97]%Z) 1 = Ok (Some None) /\ p_insert nonzero roomy t (area [97]%Z) 1 5%Z = UB.
Proof.
  exists [ins [97; 98]%Z 1%Z; ins [97; 200]%Z 2%Z]. eexists. splits; try (vm_compute; reflexivity); [ops|repeat constructor].
Qed.
Print Assumptions C37_patricia_lookup_refuted.

(** Enough room behind every allocation and every caller's key, values that are true, and keys that never part at the
    first bit of a byte other than their first, for example ASCII keys: lookup is the map. *)
Theorem C37_patricia_map_partial : forall (V : Type) (truthy : V -> bool) (room : nat -> nat) (cap : nat), (forall n, 8 * n <= room n) ->
  forall os, Forall (po_ok truthy cap) os -> Forall (@is_ins V) os -> top_ok (map (@po_key V) os) ->
  exists t, p_run truthy room p_new os = Ok t /\
    forall buf len, byte_key buf -> 1 <= len <= length buf -> p_lookup t buf len = Ok (option_map Some (pm_run os (arg_key buf len))).
Proof. intros V truthy room cap HR os H1 H2 H3. destruct (pat_main HR H1 H3 (or_introl H2)) as (t & E & L & _). exists t. auto. Qed.
Print Assumptions C37_patricia_map_partial.
(** insert reports whether the key is new *)
Theorem C37_patricia_insert_new_partial : forall (V : Type) (truthy : V -> bool) (room : nat -> nat) (cap : nat), (forall n, 8 * n <= room n) ->
  forall os buf len v, Forall (po_ok truthy cap) (os ++ [PIns buf len v]) -> Forall (@is_ins V) os -> top_ok (map (@po_key V) (os ++ [PIns buf len v])) ->
  exists t t' nw, p_run truthy room p_new os = Ok t /\ p_insert truthy room t buf len v = Ok (t', nw) /\ (nw = true <-> pm_run os (arg_key buf len) = None).
Proof. intros V truthy room cap HR os buf len v H1 H2 H3. exact (pat_insert HR H1 H3 (or_introl H2)). Qed.
Print Assumptions C37_patricia_insert_new_partial.

Lemma ascii_top K : Forall (Forall (fun b => b < 128)%Z) K -> top_ok K.
Proof.
  intros H p a b x y _ H1 H2. rewrite Forall_forall in H. pose proof (H _ H1) as A. pose proof (H _ H2) as B. apply Forall_app in A as [_ A]. apply Forall_app in B as [_ B].
  apply Forall_inv in A. apply Forall_inv in B. cbn beta in A, B. destruct (Z.ltb_spec a 128), (Z.ltb_spec b 128); lia || reflexivity.
Qed.
Ltac asc := apply ascii_top; repeat (apply Forall_cons || apply Forall_nil); cbn; repeat (apply Forall_cons || apply Forall_nil); lia.

(** "cpp", "c", "code", "dot", "cp", and "c" again: keys that are prefixes of others, and an overwritten value *)
Definition c37_os : list (pop Z) := [ins [99; 112; 112]%Z 1; ins [99]%Z 2; ins [99; 111; 100; 101]%Z 3; ins [100; 111; 116]%Z 4; ins [99; 112]%Z 5; ins [99]%Z 6]%Z.
Example C37_case : (forall n, 8 * n <= roomy n) /\ Forall (po_ok nonzero 8) c37_os /\ Forall (@is_ins Z) c37_os /\ top_ok (map (@po_key Z) c37_os) /\
  exists t, p_run nonzero roomy p_new c37_os = Ok t /\
    map (fun k => p_lookup t (area k) (length k)) [[99; 112; 112]; [99]; [99; 111; 100; 101]; [100; 111; 116]; [99; 112]; [99; 111]; [100]]%Z =
      [Ok (Some (Some 1)); Ok (Some (Some 6)); Ok (Some (Some 3)); Ok (Some (Some 4)); Ok (Some (Some 5)); Ok None; Ok None]%Z.
Proof. splits; [unfold roomy; lia|unfold c37_os; ops|repeat constructor|asc|eexists; split; vm_compute; reflexivity]. Qed.

(** * C38 *)

(** Removing "cpp" loses "c". *)
Theorem C38_patricia_remove_refuted : exists os t, Forall (po_ok nonzero 8) os /\ top_ok (map (@po_key Z) os) /\ p_run nonzero roomy p_new os = Ok t /\
  pm_run os [99]%Z = Some 1%Z /\ p_lookup t (area [99]%Z) 1 = Ok None.
Proof.
  exists [ins [99]%Z 1%Z; ins [99; 112; 112]%Z 2%Z; del [99; 112; 112]%Z]. eexists. splits; try (vm_compute; reflexivity); [ops|asc].
Qed.
Print Assumptions C38_patricia_remove_refuted.
(** A key with longer keys on both sides is reported as removed but stays. *)
Theorem C38_patricia_remove_kept_refuted : exists os t t', Forall (po_ok nonzero 8) os /\ p_run nonzero roomy p_new os = Ok t /\
  p_remove t (area [99]%Z) 1 = Ok (t', true) /\ p_lookup t' (area [99]%Z) 1 = Ok (Some (Some 1%Z)).
Proof.
  exists [ins [99]%Z 1%Z; ins [99; 1]%Z 2%Z; ins [99; 200]%Z 3%Z]. eexists _, _. splits; try (vm_compute; reflexivity). ops.
Qed.
Print Assumptions C38_patricia_remove_kept_refuted.

(** When moreover no key is a proper prefix of another, inserts and removes make the map, and remove reports whether the
    key was there. *)
Theorem C38_patricia_remove_partial : forall (V : Type) (truthy : V -> bool) (room : nat -> nat) (cap : nat), (forall n, 8 * n <= room n) ->
  forall os, Forall (po_ok truthy cap) os -> top_ok (map (@po_key V) os) -> prefix_free (map (@po_key V) os) ->
  exists t, p_run truthy room p_new os = Ok t /\
    forall buf len, byte_key buf -> 1 <= len <= length buf -> p_lookup t buf len = Ok (option_map Some (pm_run os (arg_key buf len))).
Proof. intros V truthy room cap HR os H1 H2 H3. destruct (pat_main HR H1 H2 (or_intror H3)) as (t & E & L & _). exists t. auto. Qed.
Print Assumptions C38_patricia_remove_partial.
Theorem C38_patricia_remove_found_partial : forall (V : Type) (truthy : V -> bool) (room : nat -> nat) (cap : nat), (forall n, 8 * n <= room n) ->
  forall os buf len, Forall (po_ok truthy cap) os -> byte_key buf -> 1 <= len <= length buf -> top_ok (map (@po_key V) os) -> prefix_free (map (@po_key V) os) ->
  exists t t' b, p_run truthy room p_new os = Ok t /\ p_remove t buf len = Ok (t', b) /\ (b = true <-> pm_run os (arg_key buf len) <> None).
Proof. intros V truthy room cap HR os buf len. exact (@pat_remove V truthy room cap HR os buf len). Qed.
Print Assumptions C38_patricia_remove_found_partial.

Definition c38_os : list (pop Z) := [ins [99; 112; 112]%Z 1; ins [99; 111; 100; 101]%Z 3; ins [100; 111; 116]%Z 4; ins [99; 111; 110]%Z 5; del [99; 111; 100; 101]%Z; del [120]%Z; ins [99; 112; 112]%Z 7; del [100; 111; 116]%Z]%Z.
Example C38_case : Forall (po_ok nonzero 8) c38_os /\ top_ok (map (@po_key Z) c38_os) /\ prefix_free (map (@po_key Z) c38_os) /\
  exists t, p_run nonzero roomy p_new c38_os = Ok t /\ pcount t = 2%Z /\
    map (fun k => p_lookup t (area k) (length k)) [[99; 112; 112]; [99; 111; 100; 101]; [100; 111; 116]; [99; 111; 110]]%Z = [Ok (Some (Some 7)); Ok None; Ok None; Ok (Some (Some 5))]%Z.
Proof.
  splits; [unfold c38_os; ops|asc| |eexists; splits; vm_compute; reflexivity].
  assert (D : forall x y : list Z, prefix x y -> firstn (length x) y = x) by (intros x y (s & ->); rewrite firstn_app, Nat.sub_diag, firstn_all; apply app_nil_r).
  intros x y Hx Hy HP. apply D in HP. vm_compute in Hx, Hy.
  repeat (destruct Hx as [<-|Hx]; [repeat (destruct Hy as [<-|Hy]; [first [reflexivity|vm_compute in HP; discriminate HP]|]); destruct Hy|]). destruct Hx.
Qed.

(** * C63 *)

(** A key stored with a value that is false counts again when it is inserted again. *)
Theorem C63_patricia_count_refuted : exists os t, p_run nonzero roomy p_new os = Ok t /\ (forall k, pm_run os k <> None <-> k = [97]%Z) /\ pcount t = 2%Z.
Proof.
  exists [ins [97]%Z 0%Z; ins [97]%Z 1%Z]. eexists. splits; [vm_compute; reflexivity| |vm_compute; reflexivity].
  intros k. cbn [pm_run fold_left pm_step ins]. unfold b_put, b_empty. change (arg_key (area [97]%Z) (length [97]%Z)) with [97]%Z. destruct (list_eq_dec Z.eq_dec k [97]%Z); split; congruence.
Qed.
Print Assumptions C63_patricia_count_refuted.
(** Otherwise getCount is the number of stored keys, modulo 2^32. *)
Theorem C63_patricia_count_partial : forall (V : Type) (truthy : V -> bool) (room : nat -> nat) (cap : nat), (forall n, 8 * n <= room n) ->
  forall os, Forall (po_ok truthy cap) os -> top_ok (map (@po_key V) os) -> Forall (@is_ins V) os \/ prefix_free (map (@po_key V) os) ->
  exists t L, p_run truthy room p_new os = Ok t /\ NoDup L /\ (forall k, In k L <-> pm_run os k <> None) /\ pcount t = (Z.of_nat (length L) mod 2 ^ 32)%Z.
Proof.
  intros V truthy room cap HR os H1 H2 H3. destruct (pat_main HR H1 H2 H3) as (t & E & _ & L & ND & HL & C). exists t, L. splits; auto.
Qed.
Print Assumptions C63_patricia_count_partial.
Example C63_case : exists t, p_run nonzero roomy p_new c37_os = Ok t /\ pcount t = 5%Z.
Proof. eexists. split; vm_compute; reflexivity. Qed.
