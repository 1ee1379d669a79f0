(** * Library: the set of operators a user can build with the library. *)
From Coq Require Import List ZArith Bool.
From Verif Require Import Num Py Tensor Streamable Spec Meta Common Finance.
Import ListNotations.

Section Library.
Context {N : FOps}.

(** User-supplied Python functions (make_streamable, Automaton) are arbitrary
    functions from tensors to tensors. *)
Definition user_fn (fn : list val -> res val) : Prop :=
  forall args r, Forall genuine args -> fn args = Ok r -> genuine r.
Definition user_guard (fn : list val -> res tensor) : Prop :=
  forall args r, Forall genuine args -> fn args = Ok r -> wf r.

(** Every class exported by the library, with every parameter.  Only Select with a
    tuple of indices is left out: it returns a generator. *)
Inductive basic : operator -> Prop :=
| lib_user fn : user_fn fn -> basic (make_streamable fn)
| lib_sub : basic Sub
| lib_add : basic Add
| lib_mul : basic Mul
| lib_fork n : basic (Fork n)
| lib_identity : basic Identity
| lib_select_list l : basic (Select (IdxList l))
| lib_select_one i : basic (Select (IdxOne i))
| lib_positive : basic Positive
| lib_negative : basic Negative
| lib_lag p : basic (Lag p)
| lib_set_during v p : wf v -> basic (SetDuring v p)
| lib_global_min : basic GlobalMinimum
| lib_global_max : basic GlobalMaximum
| lib_local_min p : basic (LocalMinimum p)
| lib_local_max p : basic (LocalMaximum p)
| lib_automaton trs i d :
    Forall (fun t => user_guard (tr_guard t) /\ user_fn (tr_action t)) trs -> user_fn d ->
    basic (Automaton trs i d)
| lib_correlation p : basic (Correlation p)
| lib_cross p l : basic (CrossCorrelation p l)
| lib_auto p l : basic (AutoCorrelation p l)
| lib_sma p : basic (SimpleMovingAverage p)
| lib_ema p : basic (ExponentialMovingAverage p)
| lib_rma p : basic (RollingMovingAverage p)
| lib_msd p : basic (MovingStandardDeviation p)
| lib_bollinger n k : basic (BollingerBands n k)
| lib_return p : basic (Return p)
| lib_log_return p : basic (LogarithmicReturn p)
| lib_momentum p : basic (Momentum p)
| lib_macd s f m : basic (MovingAverageConvergenceDivergence s f m)
| lib_crossover s f : basic (SimpleMovingAverageCrossover s f)
| lib_zero : basic ZeroCrossoverSignal
| lib_macd_signal s f m : basic (MovingAverageConvergenceDivergenceSignal s f m)
| lib_crossover_signal s f : basic (SimpleMovingAverageCrossoverSignal s f)
| lib_rsi p : basic (RelativeStrengthIndex p)
| lib_atr p : basic (AverageTrueRange p)
| lib_supertrend p f : basic (Supertrend p f)
| lib_heikin_ashi : basic HeikinAshi
| lib_drawdown : basic Drawdown
| lib_sharpe p : basic (SharpeRatio p)
| lib_skewness p : basic (Skewness p)
| lib_volatility m r : basic (Volatility m r)
| lib_risk_ratio s l p m : basic (RiskRatioEvaluator s l p m).

(** ... and everything that Compose, Join, Factory, Map and FFill build from them. *)
Inductive library : operator -> Prop :=
| lib_basic op : basic op -> library op
| lib_compose ops : Forall library ops -> library (Compose ops)
| lib_join ops : Forall library ops -> library (Join ops)
| lib_map op n : library op -> library (Map op n)
| lib_ffill op : library op -> library (FFill op).
Lemma library_factory {A} (cls : A -> operator) args :
  Forall (fun a => library (cls a)) args -> library (Factory cls args).
Proof. intros H. apply lib_join. now apply Forall_map. Qed.

Section Ind.
Variable P : operator -> Prop.
Hypothesis Hbasic : forall op, basic op -> P op.
Hypothesis Hcompose : forall ops, Forall library ops -> Forall P ops -> P (Compose ops).
Hypothesis Hjoin : forall ops, Forall library ops -> Forall P ops -> P (Join ops).
Hypothesis Hmap : forall op n, library op -> P op -> P (Map op n).
Hypothesis Hffill : forall op, library op -> P op -> P (FFill op).
Fixpoint library_ind' op (H : library op) : P op :=
  let go := fix go ops (H : Forall library ops) : Forall P ops :=
    match H with
    | Forall_nil _ => Forall_nil P
    | Forall_cons _ Hx Hl => Forall_cons _ (library_ind' _ Hx) (go _ Hl)
    end in
  match H with
  | lib_basic _ Hb => Hbasic _ Hb
  | lib_compose _ Ho => Hcompose _ Ho (go _ Ho)
  | lib_join _ Ho => Hjoin _ Ho (go _ Ho)
  | lib_map _ n Ho => Hmap _ n Ho (library_ind' _ Ho)
  | lib_ffill _ Ho => Hffill _ Ho (library_ind' _ Ho)
  end.
End Ind.

(** ** Wiring: every operator gets the number of inputs it declares *)
(** The values an operator receives as positional arguments (streamable.py:96-103). *)
Definition positional (x : val) : list val := match x with Tup l | Lst l => l | _ => [x] end.
(** [x] can be handed to [op]: if its [step] declares k inputs, [x] is a k-tuple (for k = 1 also a
    single value).  Operators that take their inputs as they are accept everything. *)
Inductive inputs_of : operator -> nat -> Prop :=
| in_lag p : inputs_of (Lag p) 1
| in_global_min : inputs_of GlobalMinimum 1
| in_global_max : inputs_of GlobalMaximum 1
| in_local_min p : inputs_of (LocalMinimum p) 1
| in_local_max p : inputs_of (LocalMaximum p) 1
| in_correlation p : inputs_of (Correlation p) 2
| in_cross p l : inputs_of (CrossCorrelation p l) 2
| in_auto p l : inputs_of (AutoCorrelation p l) 1
| in_sma p : inputs_of (SimpleMovingAverage p) 1
| in_ema p : inputs_of (ExponentialMovingAverage p) 1
| in_rma p : inputs_of (RollingMovingAverage p) 1
| in_msd p : inputs_of (MovingStandardDeviation p) 1
| in_bollinger n k : inputs_of (BollingerBands n k) 1
| in_return p : inputs_of (Return p) 1
| in_log_return p : inputs_of (LogarithmicReturn p) 1
| in_macd s f m : inputs_of (MovingAverageConvergenceDivergence s f m) 1
| in_zero : inputs_of ZeroCrossoverSignal 1
| in_rsi p : inputs_of (RelativeStrengthIndex p) 1
| in_atr p : inputs_of (AverageTrueRange p) 3
| in_supertrend p f : inputs_of (Supertrend p f) 3
| in_heikin_ashi : inputs_of HeikinAshi 4
| in_drawdown : inputs_of Drawdown 1
| in_sharpe p : inputs_of (SharpeRatio p) 2
| in_skewness p : inputs_of (Skewness p) 1
| in_risk_ratio s l p m : inputs_of (RiskRatioEvaluator s l p m) 4.
Inductive wired : operator -> val -> Prop :=
| wired_step op k x : inputs_of op k -> length (positional x) = k -> wired op x
| wired_stateless fn x : library (make_streamable fn) -> wired (make_streamable fn) x
| wired_set_during v p x : wf v -> wired (SetDuring v p) x
| wired_automaton trs i d x : library (Automaton trs i d) -> wired (Automaton trs i d) x
| wired_map op n x : library op -> wired (Map op n) x
| wired_ffill op x : library op -> wired op x -> wired (FFill op) x
| wired_join ops x l : Forall library ops -> iter x = Ok l -> wired_all ops l -> wired (Join ops) x
| wired_compose ops x : Forall library ops -> wired_chain (rev ops) x -> wired (Compose ops) x
(** every branch of a Join can take its input *)
with wired_all : list operator -> list val -> Prop :=
| wired_none ops l : ops = [] \/ l = [] -> wired_all ops l
| wired_more op ops x l : wired op x -> wired_all ops l -> wired_all (op :: ops) (x :: l)
(** every stage of a Compose can take the output of the stage before it *)
with wired_chain : list operator -> val -> Prop :=
| wired_nil x : wired_chain [] x
| wired_cons op r x : wired op x ->
    (forall o s i, call op x None false = Ok (o, s, i) -> wired_chain r o) -> wired_chain (op :: r) x.

(** C04: the initial state reported by a call without state is the one it started from. *)
Definition init_consistent (op : operator) (x : val) : Prop :=
  forall o s' s0, call op x None false = Ok (o, s', s0) -> call op x (Some s0) false = Ok (o, s', s0).
End Library.
