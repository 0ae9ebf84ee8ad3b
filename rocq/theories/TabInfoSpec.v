(** What a table description should answer. *)
From Verif Require Import Base TabInfoModel.
Open Scope Z_scope.

(** The position of the first column with that name, or -1. *)
Definition first_named (names : list (list Z)) (nm : list Z) (r : Z) : Prop :=
  (r = -1 /\ ~ In nm names) \/
  exists i, r = Z.of_nat i /\ nth_error names i = Some nm /\ forall j, (j < i)%nat -> nth_error names j <> Some nm.
(** The column type belonging to each element type. *)
Definition col_of (e : ety) : ctype :=
  match e with EInt => IntType | EDouble => DoubleType | EString => StringType | EOther => VoidType end.

(** Number, names and types of the columns, and nothing outside of them. *)
Definition describes (t : pinfo) (cols : list column) : Prop :=
  numColumns t = length cols /\
  (forall i nm ct, nth_error cols i = Some (nm, ct) -> exists c, columnInfo t (Z.of_nat i) = Some c /\ getName c = Ok nm /\ pctype c = ct) /\
  (forall pos, pos < 0 \/ Z.of_nat (length cols) <= pos -> columnInfo t pos = None) /\
  (forall nm, exists r, findColumnByName t nm = Ok r /\ first_named (map fst cols) nm r).
(** Names without NUL characters. *)
Definition plain (cols : list column) : Prop := forall nm ct, In (nm, ct) cols -> ~ In 0 nm.
