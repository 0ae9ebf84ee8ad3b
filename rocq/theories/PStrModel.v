(** Model of ptable/core/PString.hpp.

    The object has a buffer of 16 characters and a persistent pointer to a heap array.  A heap array
    that was freed is [None]; reading it or freeing it again is undefined.  A character is a byte
    value.  The transaction snapshots (pmemobj_tx_add_range_direct) are not modelled: they have no
    effect unless the transaction aborts. *)
From Verif Require Import Base.
Open Scope Z_scope.

Definition sso_chars : nat := 15.        (* SSO_CHARS, 33 *)

Record pstring := PString { sso : arr Z; str : option nat }.     (* 46-47 *)
Definition cheap := list (option (arr Z)).

Definition pstring_new : pstring := PString (anew (S sso_chars)) None.

(** What a C function sees of [s.c_str()]: the characters up to the first NUL, and that NUL. *)
Fixpoint c_str (s : list Z) : list Z :=
  match s with [] => [0] | c :: r => if c =? 0 then [0] else c :: c_str r end.

(** strcpy to the start of an array. *)
Fixpoint store_from (a : arr Z) (i : nat) (s : list Z) : res (arr Z) :=
  match s with [] => Ok a | c :: r => do a' <- aset a i c; store_from a' (S i) r end.
Definition strcpy (a : arr Z) (s : list Z) : res (arr Z) := store_from a 0 (c_str s).

(** Reading a C string from the start of an array: all cells up to the NUL must be initialised. *)
Fixpoint c_read (a : arr Z) : res (list Z) :=
  match a with
  | [] | None :: _ => UB
  | Some c :: r => if c =? 0 then Ok [] else do s <- c_read r; Ok (c :: s)
  end.

Definition deref (h : cheap) (p : nat) : res (arr Z) :=
  match nth_error h p with Some (Some a) => Ok a | _ => UB end.

(** delete_persistent<char[]>(str, strlen(str.get()) + 1) *)
Definition delete_str (h : cheap) (p : nat) : res cheap :=
  do a <- deref h p;
  do _ <- c_read a;
  of_opt (lset h p None).

(** data() and the C string found there, 38 *)
Definition ps_read (h : cheap) (s : pstring) : res (list Z) :=
  match str s with Some p => do a <- deref h p; c_read a | None => c_read (sso s) end.

(** reset, 50-54 *)
Definition ps_reset (h : cheap) (s : pstring) : res (cheap * pstring) :=
  do b <- aset (sso s) 0 0;
  match str s with
  | Some p => do h' <- delete_str h p; Ok (h', PString b (Some p))
  | None => Ok (h, PString b None)
  end.

(** set, 56-70 *)
Definition ps_set (h : cheap) (s : pstring) (value : list Z) : res (cheap * pstring) :=
  if (length value <=? sso_chars)%nat then
    do h' <- match str s with Some p => delete_str h p | None => Ok h end;
    do b <- strcpy (sso s) value;
    Ok (h', PString b None)
  else
    do h' <- match str s with Some p => delete_str h p | None => Ok h end;
    do a <- strcpy (repeat (Some 0) (S (length value))) value;
    Ok (h' ++ [Some a], PString (sso s) (Some (length h'))).

Inductive pop := PSet (value : list Z) | PReset.
Definition ps_step (x : cheap * pstring) (o : pop) : res (cheap * pstring) :=
  match o with PSet v => ps_set (fst x) (snd x) v | PReset => ps_reset (fst x) (snd x) end.
Fixpoint ps_run (x : cheap * pstring) (l : list pop) : res (cheap * pstring) :=
  match l with [] => Ok x | o :: r => do y <- ps_step x o; ps_run y r end.
