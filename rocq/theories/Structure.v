(** * Structure: the nested structure of the inputs, outputs and states of every operator.
    [typed op zx zo zs]: given inputs of the structure [zx], [op] gives outputs of the structure [zo] and has
    states of the structure [zs].  The structure of a value is the value without its tensors ([sk]). *)
From Coq Require Import List ZArith Bool.
From Verif Require Import Num Py PyFacts Tensor Streamable Spec Meta Common Finance Library.
Import ListNotations.

Section Structure.
Context {N : FOps}.

(** One tensor; a tuple of [n] tensors. *)
Definition one : pyval unit := Leaf tt.
Definition many (n : nat) : pyval unit := Tup (repeat one n).
(** The positional arguments held by a value. *)
Definition elems (z : pyval unit) : list (pyval unit) := match z with Tup l | Lst l => l | _ => [z] end.
(** What tf.cond makes of a value: a tuple or list of one element is replaced by this element, twice. *)
Definition unbox (z : pyval unit) : pyval unit := match z with Tup [x] | Lst [x] => x | _ => z end.

(** The states of the moving averages, of MACD and of the market indicators that hold other states. *)
Definition z_sma := many 2.
Definition z_ema := Tup [one; one; z_sma].
Definition z_atr := Tup [one; z_ema].
Definition z_correlation := many 3.
Definition z_cross := Tup [one; z_correlation; one].
(** Number of inputs, structure of the outputs, structure of the states. *)
Inductive signature : operator -> nat -> pyval unit -> pyval unit -> Prop :=
| sg_lag p : signature (Lag p) 1 one one
| sg_global_min : signature GlobalMinimum 1 one (many 2)
| sg_global_max : signature GlobalMaximum 1 one (many 2)
| sg_local_min p : signature (LocalMinimum p) 1 one (many 2)
| sg_local_max p : signature (LocalMaximum p) 1 one (many 2)
| sg_correlation p : signature (Correlation p) 2 one z_correlation
| sg_cross p l : signature (CrossCorrelation p l) 2 one z_cross
| sg_auto p l : signature (AutoCorrelation p l) 1 one (Tup [z_cross])
| sg_sma p : signature (SimpleMovingAverage p) 1 one z_sma
| sg_ema p : signature (ExponentialMovingAverage p) 1 one z_ema
| sg_rma p : signature (RollingMovingAverage p) 1 one z_ema
| sg_msd p : signature (MovingStandardDeviation p) 1 one (many 2)
| sg_bollinger n k : signature (BollingerBands n k) 1 (many 3) (Tup [many 2; z_sma])
| sg_return p : signature (Return p) 1 one (many 2)
| sg_log_return p : signature (LogarithmicReturn p) 1 one (many 2)
| sg_macd s f m :
    signature (MovingAverageConvergenceDivergence s f m) 1 (many 5) (Tup [one; z_ema; z_ema; z_ema])
| sg_zero : signature ZeroCrossoverSignal 1 one (many 2)
| sg_rsi p : signature (RelativeStrengthIndex p) 1 one (many 4)
| sg_atr p : signature (AverageTrueRange p) 3 one z_atr
| sg_supertrend p f : signature (Supertrend p f) 3 one (Tup [z_atr; one; one; one; one])
| sg_heikin_ashi : signature HeikinAshi 4 (many 4) (many 2)
| sg_drawdown : signature Drawdown 1 (many 2) (many 2)
| sg_sharpe p : signature (SharpeRatio p) 2 one (many 2)
| sg_skewness p : signature (Skewness p) 1 one (many 2)
| sg_risk_ratio s l p m :
    signature (RiskRatioEvaluator s l p m) 4 (many 4) (Tup [one; one; one; one; one; one; many 2]).

(** A user-supplied function giving results of the structure [zo] on arguments of the structures [zs]. *)
Definition fn_typed (fn : list val -> res val) (zs : list (pyval unit)) (zo : pyval unit) : Prop :=
  forall args r, Forall genuine args -> map sk args = zs -> fn args = Ok r -> sk r = zo.

Inductive typed : operator -> pyval unit -> pyval unit -> pyval unit -> Prop :=
| ty_step op k zx zo zs : signature op k zo zs -> length (elems zx) = k -> typed op zx zo zs
| ty_stateless fn zx zo :
    library (make_streamable fn) -> fn_typed fn (elems zx) zo -> typed (make_streamable fn) zx zo (Tup [])
| ty_set_during v p zx : wf v -> typed (SetDuring v p) zx zx (Tup [one])
| ty_automaton trs i d zs zx zo :
    Forall (fun t => user_guard (tr_guard t) /\ user_fn (tr_action t)) trs -> user_fn d ->
    zx = Tup zs \/ zx = Lst zs -> Forall (fun t => fn_typed (tr_action t) zs zo) trs -> fn_typed d zs zo ->
    typed (Automaton trs i d) zx zo one
| ty_map op n zx zo zs : typed op zx zo zs -> typed (Map op n) zx zo (Tup [zs])
(** tf.cond replaces one-element tuples, so FFill only keeps the structure of the others (C14). *)
| ty_ffill op zx zo zs :
    typed op zx zo zs -> unbox zo = zo -> unbox zs = zs -> typed (FFill op) zx zo (Tup [zo; zs])
| ty_join ops zx zxs zos zss :
    zx = Tup zxs \/ zx = Lst zxs -> typed_all ops zxs zos zss -> typed (Join ops) zx (Tup zos) (Tup zss)
| ty_compose ops zx zo zss : typed_chain (rev ops) zx zo zss -> typed (Compose ops) zx zo (Tup zss)
with typed_all : list operator -> list (pyval unit) -> list (pyval unit) -> list (pyval unit) -> Prop :=
| ty_none : typed_all [] [] [] []
| ty_more op ops zx zxs zo zos zs zss :
    typed op zx zo zs -> typed_all ops zxs zos zss ->
    typed_all (op :: ops) (zx :: zxs) (zo :: zos) (zs :: zss)
with typed_chain : list operator -> pyval unit -> pyval unit -> list (pyval unit) -> Prop :=
| ty_last op zx zo zs : typed op zx zo zs -> typed_chain [op] zx zo [zs]
| ty_next op ops zx zm zo zs zss :
    typed op zx zm zs -> typed_chain ops zm zo zss -> typed_chain (op :: ops) zx zo (zs :: zss).
Scheme typed_mind := Minimality for typed Sort Prop
  with typed_each_mind := Minimality for typed_all Sort Prop
  with typed_chain_mind := Minimality for typed_chain Sort Prop.
Combined Scheme typed_mutual from typed_mind, typed_each_mind, typed_chain_mind.

(** The given state, if any, has the structure [zs]. *)
Definition state_like (st : option val) (zs : pyval unit) : Prop :=
  match st with Some s => sk s = zs | None => True end.
End Structure.
