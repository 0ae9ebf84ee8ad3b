(** C39: serialize.hpp. *)
From Verif Require Import Base SerModel SerProofs.
Open Scope Z_scope.
Unset Implicit Arguments.

Theorem C39_round_trip : forall t (v : den t) buf, ok t v ->
  exists enc, serialize t v buf = Ok (buf ++ enc) /\ length enc = get_size t v /\
    forall suffix, deserialize t (enc ++ suffix) = Ok (v, suffix).
Proof. exact round_trip. Qed.
Print Assumptions C39_round_trip.

Theorem C39_consecutive : forall t1 t2 (v1 : den t1) (v2 : den t2), ok t1 v1 -> ok t2 v2 ->
  exists b1 b2, serialize t1 v1 [] = Ok b1 /\ serialize t2 v2 b1 = Ok b2 /\
    (do x <- deserialize t1 b2; do y <- deserialize t2 (snd x); Ok (fst x, fst y, snd y)) = Ok (v1, v2, []).
Proof. exact two_values. Qed.
Print Assumptions C39_consecutive.

(** tuple<int16_t, vector<string>, tuple<uint8_t>> *)
Definition ex_ty : ty := TTup (TMore (TInt 2 true) (TMore (TVec TStr) (TOne (TTup (TOne (TInt 1 false)))))).
Definition ex_val : den ex_ty := (-2, ([[72; 105]; []; [255; 0]], 200)).
Example C39_ex : ok ex_ty ex_val /\
  serialize ex_ty ex_val [7] =
    Ok [7; 254; 255; 3; 0; 0; 0; 0; 0; 0; 0; 2; 0; 0; 0; 0; 0; 0; 0; 72; 105; 0; 0; 0; 0; 0; 0; 0; 0; 2; 0; 0; 0; 0; 0; 0; 0; 255; 0; 200].
Proof.
  split; [|reflexivity]. cbv [ex_ty ex_val ok oks int_ok fst snd length Z.of_nat]. repeat split; try lia.
  all: cbn; try lia. repeat constructor; cbn; lia.
Qed.
