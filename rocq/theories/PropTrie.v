(** C34-C36, C61, C62: the trie with one pointer per byte (ptries/BaseTrie.hpp). *)
From Verif Require Import Base TrieModel TrieSpec TrieMain.
Open Scope Z_scope.

(** * C34 *)

(** Keys shorter than 256 bytes are found with the value of their last insert, whatever else (of any length) was
    inserted, and insert reports whether its key is new. *)
Theorem C34_trie_map : forall (V : Type) (l : list (list Z * V)), Forall (fun e => byte_key (fst e)) l ->
  let n := t_run (map (fun e => TIns (fst e) (snd e)) l) in
  (forall k, (length k < 256)%nat -> t_lookup n k = Ok (b_puts l k)) /\
  (forall k v, byte_key k -> snd (t_insert n k v) = true <-> b_puts l k = None).
Proof. exact trie_map. Qed.
Print Assumptions C34_trie_map.

Definition c34_ins : list (list Z * Z) := [([97; 98], 1); ([97], 2); ([], 3); ([97; 98; 255], 4); ([97; 98], 5)].
Example C34_case : Forall (fun e => byte_key (fst e)) c34_ins /\
  let n := t_run (map (fun e => TIns (fst e) (snd e)) c34_ins) in
  map (t_lookup n) [[97; 98]; [97]; []; [97; 98; 255]; [97; 99]; [97; 98; 254]] = [Ok (Some 5); Ok (Some 2); Ok (Some 3); Ok (Some 4); Ok None; Ok None] /\
  snd (t_insert n [97] 0) = false /\ snd (t_insert n [98] 0) = true.
Proof. split; [|vm_compute; auto]. repeat (apply Forall_cons || apply Forall_nil); cbn; lia. Qed.

(** * C35 *)

(** The index variable of lookup is a uint8_t: for a key of 256 bytes or more it never reaches the end of the key. *)
Theorem C35_trie_long_key_refuted : exists (k : list Z) (v : Z), byte_key k /\ length k = 256%nat /\
  b_puts [(k, v)] k = Some v /\ t_lookup (t_run [TIns k v]) k = Ok None.
Proof.
  exists (repeat 97 256), 7. splits; [|reflexivity|vm_compute; reflexivity|vm_compute; reflexivity].
  apply Forall_forall. intros x Hx. apply repeat_spec in Hx. lia.
Qed.
Print Assumptions C35_trie_long_key_refuted.

(** Every lookup of such a key ends, without reading outside the key, and reports it absent. *)
Theorem C35_trie_long_keys_absent : forall (V : Type) (os : list (top V)) k,
  Forall (@op_bytes V) os -> (256 <= length k)%nat -> t_lookup (t_run os) k = Ok None.
Proof. exact trie_long. Qed.
Print Assumptions C35_trie_long_keys_absent.

Example C35_case : t_lookup (t_run [TIns (repeat 97 255) 1; TIns (repeat 97 300) 2]) (repeat 97 255) = Ok (Some 1) /\
  t_lookup (t_run [TIns (repeat 97 255) 1; TIns (repeat 97 300) 2]) (repeat 97 300) = Ok None.
Proof. vm_compute. auto. Qed.

(** * C36 *)

(** "a" and "ab" are stored; removing "ab" removes "a" with it. *)
Theorem C36_trie_remove_refuted : exists (os : list (top Z)) k, Forall (@op_bytes Z) os /\ (length k < 256)%nat /\
  m_run os k = Some 1 /\ t_lookup (t_run os) k = Ok None.
Proof.
  exists [TIns [97] 1; TIns [97; 98] 2; TDel _ [97; 98]], [97]. splits; [|cbn; lia|vm_compute; reflexivity|vm_compute; reflexivity].
  repeat (apply Forall_cons || apply Forall_nil); cbn; repeat (apply Forall_cons || apply Forall_nil); lia.
Qed.
Print Assumptions C36_trie_remove_refuted.

(** What remove does, exactly: besides its key it loses the stored proper prefixes of the key (other than the empty
    key) below which nothing but prefixes of the key is stored; it reports whether the key was stored. *)
Theorem C36_trie_remove_exact : forall (V : Type) (os : list (top V)), Forall (@op_bytes V) os -> exists m, b_run b_empty os m /\
  (forall k, (length k < 256)%nat -> t_lookup (t_run os) k = Ok (m k)) /\
  (forall k, byte_key k -> snd (t_remove (t_run os) k) = true <-> m k <> None).
Proof. exact trie_remove. Qed.
Print Assumptions C36_trie_remove_exact.

(** When no key of the history is a proper prefix of another, remove is right. *)
Theorem C36_trie_remove_prefix_free : forall (V : Type) (os : list (top V)), Forall (@op_bytes V) os -> prefix_free (map (@o_key V) os) ->
  forall k, (length k < 256)%nat -> t_lookup (t_run os) k = Ok (m_run os k).
Proof. exact trie_remove_pf. Qed.
Print Assumptions C36_trie_remove_prefix_free.

Definition c36_os : list (top Z) := [TIns [97; 98] 1; TIns [97; 99; 100] 2; TIns [97; 99; 101] 3; TDel _ [97; 99; 100]; TDel _ [98]; TDel _ [97; 98]; TIns [97; 98] 4].
Example C36_case : Forall (@op_bytes Z) c36_os /\ prefix_free (map (@o_key Z) c36_os) /\
  map (t_lookup (t_run c36_os)) [[97; 98]; [97; 99; 100]; [97; 99; 101]; [98]] = [Ok (Some 4); Ok None; Ok (Some 3); Ok None] /\
  snd (t_remove (t_run c36_os) [97; 99; 101]) = true /\ snd (t_remove (t_run c36_os) [97; 99]) = false.
Proof.
  splits; try (vm_compute; reflexivity).
  - repeat (apply Forall_cons || apply Forall_nil); cbn; repeat (apply Forall_cons || apply Forall_nil); lia.
  - assert (D : forall x y : list Z, prefix x y -> firstn (length x) y = x) by (intros x y (s & ->); rewrite firstn_app, Nat.sub_diag, firstn_all; apply app_nil_r).
    intros x y Hx Hy HP. apply D in HP. cbn [map o_key c36_os] in Hx, Hy.
    repeat (destruct Hx as [<-|Hx]; [repeat (destruct Hy as [<-|Hy]; [first [reflexivity|vm_compute in HP; discriminate HP]|]); destruct Hy|]). destruct Hx.
Qed.
(** The loss is not limited to one prefix: removing "abc" takes "a" and "ab" along but not the empty key or "ad". *)
Example C36_exact_case :
  map (t_lookup (t_run [TIns [] 0; TIns [97] 1; TIns [97; 98] 2; TIns [97; 98; 99] 3; TDel _ [97; 98; 99]])) [[]; [97]; [97; 98]; [97; 98; 99]] = [Ok (Some 0); Ok None; Ok None; Ok None] /\
  map (t_lookup (t_run [TIns [97] 1; TIns [97; 98] 2; TIns [97; 98; 99] 3; TIns [97; 100] 4; TDel _ [97; 98; 99]])) [[97]; [97; 98]; [97; 98; 99]; [97; 100]] = [Ok (Some 1); Ok None; Ok None; Ok (Some 4)].
Proof. vm_compute. auto. Qed.

(** * C61 *)

(** subNodes counts the distinct prefixes of the stored keys, the empty one included: no node is leaked or missed. *)
Theorem C61_trie_sub_nodes : forall (V : Type) (os : list (top V)), Forall (@op_bytes V) os -> exists m L, b_run b_empty os m /\
  NoDup L /\ (forall x, In x L <-> x = [] \/ exists y, m y <> None /\ prefix x y) /\ t_sub_nodes (t_run os) = Z.of_nat (length L).
Proof. exact trie_count. Qed.
Print Assumptions C61_trie_sub_nodes.

Example C61_case : t_sub_nodes (t_run c36_os) = 5 /\ t_sub_nodes (t_run [TIns [97; 98] 1; TIns [97; 255] 2; TDel _ [97; 98]; TDel _ [97; 255]]) = 1.
Proof. vm_compute. auto. Qed.

(** * C62 *)

(** Inserts with power failures between any two of their transactions: each either took effect or did not. *)
Theorem C62_trie_crash_insert : forall (V : Type) (os : list (tcop V)), Forall (@c_bytes V) os -> Forall (@c_ins V) os -> exists m, c_run b_empty os m /\
  (forall k, (length k < 256)%nat -> t_lookup (t_crun os) k = Ok (m k)) /\
  (forall k v, byte_key k -> snd (t_insert (t_crun os) k v) = true <-> m k = None).
Proof. exact trie_crash_ins. Qed.
Print Assumptions C62_trie_crash_insert.

(** The same with removes, where no key is a proper prefix of another. *)
Theorem C62_trie_crash_remove : forall (V : Type) (os : list (tcop V)), Forall (@c_bytes V) os -> prefix_free (map (@c_key V) os) -> exists m, c_run b_empty os m /\
  (forall k, (length k < 256)%nat -> t_lookup (t_crun os) k = Ok (m k)) /\
  (forall k, byte_key k -> snd (t_remove (t_crun os) k) = true <-> m k <> None).
Proof. exact trie_crash_pf. Qed.
Print Assumptions C62_trie_crash_remove.

(** The cut operations are the operations themselves when nothing is cut off. *)
Theorem C62_trie_cut_whole : forall (V : Type) (n : tnode V) k v m, (length k < m)%nat ->
  t_insert_cut m n k v = fst (t_insert n k v) /\ fst (t_remove_cut m n k) = fst (t_remove n k).
Proof. exact trie_cut_whole. Qed.
Print Assumptions C62_trie_cut_whole.

(** An insert cut off after two of its three nodes leaves nodes behind but no entry; a later insert completes it; a
    remove cut off after its first transaction has removed its key. *)
Example C62_case : let os := [CInsCut [97; 98; 99] 1 2; CIns [97; 100] 2; CDelCut _ [97; 100] 1] in
  Forall (@c_bytes Z) os /\ t_sub_nodes (t_crun os) = 4 /\
  map (t_lookup (t_crun os)) [[97; 98; 99]; [97; 100]; [97; 98]] = [Ok None; Ok None; Ok None] /\
  t_lookup (t_crun (os ++ [CIns [97; 98; 99] 5])) [97; 98; 99] = Ok (Some 5).
Proof.
  cbv zeta. splits; try (vm_compute; reflexivity). repeat (apply Forall_cons || apply Forall_nil); cbn; repeat (apply Forall_cons || apply Forall_nil); lia.
Qed.
