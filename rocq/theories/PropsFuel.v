(** * PropsFuel: property C64.  A call ends with a result or with an error of the program: the bound the model puts on tf.while_loop is
    never reached. *)
From Coq Require Import List ZArith Bool Lia.
From Verif Require Import Num Py Tensor Streamable Meta Common Finance Structure Fuel FuelFacts.
Import ListNotations.

(** The bound is not observable unless it is reached: a loop that ends in [k] iterations gives the same with any larger bound. *)
Theorem C64_bound {S} cond (body : S -> res S) s k k' :
  no_fuel_error (tf_while k cond body s) -> k <= k' -> tf_while k' cond body s = tf_while k cond body s.
Proof. exact (while_more cond body k s k'). Qed.
Print Assumptions C64_bound.
(** Streaming never reaches it, whatever the operator does with a row (as long as its own step does not), whatever the inputs, and also
    when the call fails. *)
Theorem C64_streaming {N : FOps} op : (forall inputs state, no_fuel_error (forward_step op inputs state)) ->
  forall inputs state streamable, no_fuel_error (call op inputs state streamable).
Proof. exact (call_no_fuel op). Qed.
Print Assumptions C64_streaming.
(** Nor does any operator of the library, Map included, nested in any way. *)
Theorem C64_library {N : FOps} op : finite op -> forall inputs state streamable, no_fuel_error (call op inputs state streamable).
Proof. exact (finite_call op). Qed.
Print Assumptions C64_library.
(** The classes which [finite] does not name are among these operators. *)
Theorem C64_built_in {N : FOps} p q m i n : finite Sub /\ finite Add /\ finite Mul /\ finite (Fork n) /\ finite Identity /\
  finite (Select i) /\ finite Positive /\ finite Negative /\ finite (Momentum p) /\ finite (Volatility p q) /\
  finite (SimpleMovingAverageCrossover p q) /\ finite (SimpleMovingAverageCrossoverSignal p q) /\
  finite (MovingAverageConvergenceDivergenceSignal p q m).
Proof. exact (finite_built_in p q m i n). Qed.
Print Assumptions C64_built_in.
(** Nor do the loops of filter_with_mask and of the drawdown summaries, even on masks and values of different lengths. *)
Theorem C64_helpers {N : FOps} {A} mask (values : list A) drawdown days :
  no_fuel_error (filter_with_mask mask values) /\ no_fuel_error (details drawdown days) /\ no_fuel_error (avg drawdown days).
Proof. exact (conj (nf_filter mask values) (conj (nf_details drawdown days) (nf_avg drawdown days))). Qed.
Print Assumptions C64_helpers.

Example C64_met {N : FOps} : finite (Compose [Map (RelativeStrengthIndex 3) 4; FFill (Join [Momentum 2; Volatility 2 3])]).
Proof.
  destruct (finite_built_in 2 3 1 (IdxOne 0) 0) as (_ & _ & _ & _ & _ & _ & _ & _ & Hm & _). destruct (finite_built_in 2 3 1 (IdxOne 0) 0) as (_ & _ & _ & _ & _ & _ & _ & _ & _ & Hv & _).
  apply finite_compose. apply Forall_cons.
  - apply finite_map. eapply finite_listed. constructor.
  - apply Forall_cons; [|apply Forall_nil]. apply finite_ffill, finite_join. apply Forall_cons; [exact Hm|]. apply Forall_cons; [exact Hv|apply Forall_nil].
Qed.
(** The bound itself is reachable: with fewer iterations than rows the loop reports it. *)
Example C64_bound_met : tf_while 2 (fun i => Nat.ltb i 3) (fun i => Ok (S i)) 0 = Err EFuel /\
  tf_while 3 (fun i => Nat.ltb i 3) (fun i => Ok (S i)) 0 = Ok 3.
Proof. split; reflexivity. Qed.
