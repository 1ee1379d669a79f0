(** * WitnessRisk: concrete ticks for the risk-ratio evaluator, in single precision. *)
From Coq Require Import List ZArith Bool Lia.
From Coq Require Import Floats.SpecFloat.
From Verif Require Import Num Py Tensor Streamable Common Finance B32 Series Formulas ImplMarket ImplRisk RiskFacts.
Import ListNotations.

Section Lost.
Variable log32 : spec_float -> spec_float.
Let N := B32 log32.
Existing Instance N.
Definition wtick (x : Z * Z * Z * Z) : tick := let '(l, h, c, s) := x in Tick (f_of_Z l) (f_of_Z h) (f_of_Z c) s.
(** Closes 1, 3, 3 with period 2: the purchase at 3 has volatility 1, so with factor 3 the stop is 0. *)
Definition lost : list tick := map wtick [(1, 1, 1, 0); (3, 3, 3, 1); (3, 3, 3, 1)]%Z.
(** Closes 2, 4, 4, 9 with factors 1: bought at 4 (stop 3, limit 5), sold at the limit. *)
Definition kept : list tick := map wtick [(2, 2, 2, 0); (4, 4, 4, 1); (4, 4, 4, 1); (9, 9, 9, 0)]%Z.
Definition as_risk (r : res (val * val * val)) : option (list Z * list Z * list Z) :=
  match r with
  | Ok (Tup [Leaf (mkT [a] (DI w)); Leaf (mkT [b] (DI t)); Leaf (mkT [c] (DF v)); Leaf (mkT [d] (DI s))], _, _) =>
      if Nat.eqb a (length w) && Nat.eqb b (length t) && Nat.eqb c (length v) && Nat.eqb d (length s) then Some (w, t, s) else None
  | _ => None
  end.
Lemma as_risk_spec r w t s : as_risk r = Some (w, t, s) -> exists v sf s0, r = Ok (Tup [ints w; ints t; scalars v; ints s], sf, s0).
Proof.
  destruct r as [[[o sf] s0]|]; [|discriminate]. destruct o as [|l| | |]; try discriminate.
  destruct l as [|a l]; [discriminate|]. destruct a as [[[|n []] [|w'|]]| | | |]; try discriminate.
  destruct l as [|b l]; [discriminate|]. destruct b as [[[|n0 []] [|t'|]]| | | |]; try discriminate.
  destruct l as [|c l]; [discriminate|]. destruct c as [[[|n1 []] [v'| |]]| | | |]; try discriminate.
  destruct l as [|d l]; [discriminate|]. destruct d as [[[|n2 []] [|s'|]]| | | |]; try discriminate.
  destruct l; [|discriminate].
  unfold as_risk. destruct (Nat.eqb_spec n (length w')) as [->|]; [|discriminate].
  destruct (Nat.eqb_spec n0 (length t')) as [->|]; [|discriminate]. destruct (Nat.eqb_spec n1 (length v')) as [->|]; [|discriminate].
  destruct (Nat.eqb_spec n2 (length s')) as [->|]; [|discriminate]. cbn [andb]. intros H. injection H as -> -> ->. now exists v', sf, s0.
Qed.
Definition triple_is (o : option (list Z * list Z * list Z)) (w t s : list Z) : bool :=
  match o with
  | Some (w', t', s') => (if list_eq_dec Z.eq_dec w' w then true else false) && (if list_eq_dec Z.eq_dec t' t then true else false)
                         && (if list_eq_dec Z.eq_dec s' s then true else false)
  | None => false
  end.
Lemma triple_is_spec r w t s : triple_is (as_risk r) w t s = true -> exists v sf s0, r = Ok (Tup [ints w; ints t; scalars v; ints s], sf, s0).
Proof.
  unfold triple_is. destruct (as_risk r) as [[[w' t'] s']|] eqn:E; [|discriminate].
  destruct (list_eq_dec Z.eq_dec w' w) as [->|]; [|discriminate]. destruct (list_eq_dec Z.eq_dec t' t) as [->|]; [|discriminate].
  destruct (list_eq_dec Z.eq_dec s' s) as [->|]; [|discriminate]. intros _. now apply as_risk_spec.
Qed.
Lemma lost_run : exists v sf s0, call (RiskRatioEvaluator (PyInt 3) (PyInt 3) 2 None) (ticks lost) None true =
  Ok (Tup [ints [0; 0; 0]%Z; ints [0; 0; 0]%Z; scalars v; ints [0; 1; 1]%Z], sf, s0).
Proof. apply triple_is_spec. vm_compute. reflexivity. Qed.
Lemma kept_run : exists v sf s0, call (RiskRatioEvaluator (PyInt 1) (PyInt 1) 2 None) (ticks kept) None true =
  Ok (Tup [ints [0; 0; 0; 1]%Z; ints [0; 0; 0; 1]%Z; scalars v; ints [0; 1; 0; -1]%Z], sf, s0).
Proof. apply triple_is_spec. vm_compute. reflexivity. Qed.
Lemma two_buys : exists xs wins bets vols sigs sf s0,
  call (RiskRatioEvaluator (PyInt 3) (PyInt 3) 2 None) (ticks xs) None true = Ok (Tup [ints wins; ints bets; scalars vols; ints sigs], sf, s0) /\
  sigs = [0; 1; 1]%Z /\ bets = [0; 0; 0]%Z.
Proof. destruct lost_run as (v & sf & s0 & E). exists lost, [0; 0; 0]%Z, [0; 0; 0]%Z, v, [0; 1; 1]%Z, sf, s0. auto. Qed.
Lemma ticks_ok : (lost <> [] /\ below31 (rev lost)) /\ (kept <> [] /\ below31 (rev kept)).
Proof. repeat split; try discriminate; unfold below31; rewrite rev_length; unfold lost, kept; rewrite map_length; cbn [length]; lia. Qed.
End Lost.
