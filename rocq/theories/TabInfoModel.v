(** Model of ptable/core/PTableInfo.hpp, PTableInfo.cpp and the table description of VTableInfo.hpp.

    A character is a byte value.  [Ok None] is a thrown exception.  The vector of columns is a list; the names of
    its elements live in arrays of their own (not freed by anything here).  Transactions are not modelled: they have
    no effect unless they abort.  keyColumn is never written and not modelled. *)
From Verif Require Import Base PStrModel.
Open Scope Z_scope.

Inductive ctype := VoidType | IntType | DoubleType | StringType.     (* VTableInfo.hpp:31 *)
(** The element types of the tuple: int, double, std::string, anything else. *)
Inductive ety := EInt | EDouble | EString | EOther.
(** toColumnType, VTableInfo.hpp:33-40 *)
Definition toColumnType (e : ety) : ctype :=
  match e with EInt => IntType | EDouble => DoubleType | EString => StringType | EOther => VoidType end.

Definition column := (list Z * ctype)%type.
(** ColumnsConstructor<Tuple, N>::apply, VTableInfo.hpp:177-190; [sv[N - 1]] is not checked. *)
Fixpoint columns_apply (tup : list ety) (sv : list (list Z)) (n : nat) : res (list column) :=
  match n with
  | O => Ok []
  | S m =>
    do cv <- columns_apply tup sv m;
    do s <- of_opt (nth_error sv m);
    do e <- of_opt (nth_error tup m);
    Ok (cv ++ [(s, toColumnType e)])
  end.
(** VTableInfo(name, columns), VTableInfo.hpp:197-203 *)
Record vinfo := VInfo { vname : list Z; vcolumns : list column }.
Definition vinfo_new (tup : list ety) (name : list Z) (sv : list (list Z)) : res (option vinfo) :=
  if negb (length sv =? length tup)%nat then Ok None else
  do cv <- columns_apply tup sv (length tup);
  Ok (Some (VInfo name cv)).

(** PColumnInfo, PTableInfo.hpp:45-56, PTableInfo.cpp:25-36 *)
Record pcolumn := PCol { pcname : arr Z; pctype : ctype }.
Definition pcolumn_new (n : list Z) (ct : ctype) : res pcolumn :=
  do a <- strcpy (repeat (Some 0) (S (length n))) n;
  Ok (PCol a ct).
Definition getName (c : pcolumn) : res (list Z) := c_read (pcname c).

Record pinfo := PInfo { pheap : cheap; pname : pstring; pcolumns : list pcolumn }.
Fixpoint push_all (cv : list column) (cols : list pcolumn) : res (list pcolumn) :=
  match cv with
  | [] => Ok cols
  | c :: r => do x <- pcolumn_new (fst c) (snd c); push_all r (cols ++ [x])
  end.
(** initPTableInfo, PTableInfo.hpp:80-93 *)
Definition init (name : list Z) (cv : list column) : res pinfo :=
  do hs <- ps_set [] pstring_new name;
  do cols <- push_all cv [];
  Ok (PInfo (fst hs) (snd hs) cols).
(** The constructors, 70-78 *)
Definition pinfo_of (v : vinfo) : res pinfo := init (vname v) (vcolumns v).
Definition pinfo_new (tup : list ety) (name : list Z) (sv : list (list Z)) : res pinfo :=
  do cv <- columns_apply tup sv (length tup);
  init name cv.
(** 95-99 *)
Definition tableName (t : pinfo) : res (list Z) := ps_read (pheap t) (pname t).
Definition numColumns (t : pinfo) : nat := length (pcolumns t).
(** columns->at(pos) with an int: a negative one becomes huge, and at() throws. *)
Definition columnInfo (t : pinfo) (pos : Z) : option pcolumn :=
  if pos <? 0 then None else nth_error (pcolumns t) (Z.to_nat pos).
(** setColumns, 103-111 *)
Definition setColumns (t : pinfo) (vec : list column) : res pinfo :=
  do cols <- push_all vec [];
  Ok (PInfo (pheap t) (pname t) cols).
(** findColumnByName, 113-119 *)
Fixpoint find_from (cols : list pcolumn) (i : nat) (colName : list Z) : res Z :=
  match cols with
  | [] => Ok (-1)
  | c :: r =>
    do s <- getName c;
    if list_eq_dec Z.eq_dec s colName then Ok (Z.of_nat i) else find_from r (S i) colName
  end.
Definition findColumnByName (t : pinfo) (colName : list Z) : res Z := find_from (pcolumns t) 0 colName.
