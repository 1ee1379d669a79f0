(** * Fuel: vocabulary of property C64.  The model runs tf.while_loop on a bounded number of iterations ([tf_while], Streamable.v) and reports
    [EFuel] when that number is used up.  Nothing in /repo does so. *)
From Coq Require Import List ZArith Bool.
From Verif Require Import Num Py Tensor Streamable Meta Common Finance Structure.
Import ListNotations.

(** A function that never runs out of iterations. *)
Definition no_fuel_error {A} (r : res A) : Prop := r <> Err EFuel.

Section Fuel.
Context {N : FOps}.
(** All operators of the library, whose Python functions supplied by the user ([make_streamable], [Automaton]) do not run out of iterations.
    [signature] (Structure.v) lists the classes with a [step] of their own; the others are built with Compose and [make_streamable]. *)
Inductive finite : operator -> Prop :=
| finite_listed op k zo zs : signature op k zo zs -> finite op
| finite_user fn : (forall args, no_fuel_error (fn args)) -> finite (make_streamable fn)
| finite_set_during v p : finite (SetDuring v p)
| finite_automaton trs q d :
    Forall (fun t => forall args, no_fuel_error (tr_guard t args) /\ no_fuel_error (tr_action t args)) trs ->
    (forall args, no_fuel_error (d args)) -> finite (Automaton trs q d)
| finite_compose ops : Forall finite ops -> finite (Compose ops)
| finite_join ops : Forall finite ops -> finite (Join ops)
| finite_map op n : finite op -> finite (Map op n)
| finite_ffill op : finite op -> finite (FFill op).
End Fuel.
