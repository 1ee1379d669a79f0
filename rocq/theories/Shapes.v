(** * Shapes: the shapes and dtypes of the inputs, outputs and states of every operator.
    [well_shaped op zx zo zs]: given inputs with the nested structure, shapes and dtypes [zx], [op] gives
    outputs with [zo] and has states with [zs].  For a value [v] these are [sig v] (Spec.v). *)
From Coq Require Import List ZArith Bool.
From Verif Require Import Num Py PyFacts Tensor Streamable Spec SpecMeta Meta Common Finance Library.
Import ListNotations.

Definition ztype : Type := pyval (list nat * dtype).

Section Shapes.
Context {N : FOps}.

(** float32, int32 and boolean tensors of a shape; scalars. *)
Definition tf (s : list nat) : ztype := Leaf (s, F32).
Definition ti (s : list nat) : ztype := Leaf (s, I32).
Definition num : ztype := tf [].
Definition int : ztype := ti [].
Definition bool_ : ztype := Leaf ([], BOOL).
(** [p] past tensors of a shape. *)
Definition past (p : Z) (s : list nat) (d : dtype) : ztype := Leaf (Z.to_nat p :: s, d).
(** The positional arguments held by a value. *)
Definition parts {A} (z : pyval A) : list (pyval A) := match z with Tup l | Lst l => l | _ => [z] end.
(** The same with one more dimension in front. *)
Definition wide (n : nat) (z : ztype) : ztype := vmap (fun x => (n :: fst x, snd x)) z.
(** Neither of one element nor empty. *)
Definition plural (z : ztype) : Prop := ~ boxed z /\ holds_something z.

Definition s_sma p s := Tup [int; past p s F32].
Definition s_ema p s := Tup [int; tf s; s_sma p s].
Definition s_corr p s := Tup [int; past p s F32; past p s F32].
Definition s_cross p l s := Tup [int; s_corr p s; past l s F32].

(** What an operator takes, gives and holds.  Periods are at least 1.  Where a list [s] occurs, tensors of every
    shape are accepted; otherwise only scalars are. *)
Inductive takes : operator -> list ztype -> ztype -> ztype -> Prop :=
| tk_lag p s d : (1 <= p)%Z -> takes (Lag p) [Leaf (s, d)] (Leaf (s, d)) (past p s d)
| tk_sma p s : (1 <= p)%Z -> takes (SimpleMovingAverage p) [tf s] (tf s) (s_sma p s)
| tk_ema p s : (1 <= p)%Z -> takes (ExponentialMovingAverage p) [tf s] (tf s) (s_ema p s)
| tk_rma p s : (1 <= p)%Z -> takes (RollingMovingAverage p) [tf s] (tf s) (s_ema p s)
| tk_msd p s : (1 <= p)%Z -> takes (MovingStandardDeviation p) [tf s] (tf s) (s_sma p s)
| tk_bollinger p k s : (1 <= p)%Z ->
    takes (BollingerBands p k) [tf s] (Tup [tf s; tf s; tf s]) (Tup [s_sma p s; s_sma p s])
| tk_return p : (1 <= p)%Z -> takes (Return p) [num] num (s_sma p [])
| tk_log_return p : (1 <= p)%Z -> takes (LogarithmicReturn p) [num] num (s_sma p [])
| tk_macd p f m s : (1 <= p)%Z -> (1 <= f)%Z -> (1 <= m)%Z ->
    takes (MovingAverageConvergenceDivergence p f m) [tf s] (Tup [tf s; tf s; tf s; tf s; tf s])
      (Tup [int; s_ema p s; s_ema f s; s_ema m s])
| tk_zero s : takes ZeroCrossoverSignal [tf s] (ti s) (Tup [bool_; tf s])
| tk_rsi p : (1 <= p)%Z -> takes (RelativeStrengthIndex p) [num] num (Tup [int; past p [] F32; num; num])
(** The average true range of tensors is the scalar average of their greatest true range. *)
| tk_atr p s : (1 <= p)%Z -> takes (AverageTrueRange p) [tf s; tf s; tf s] num (Tup [tf s; s_ema p []])
| tk_heikin_ashi : takes HeikinAshi [num; num; num; num] (Tup [num; num; num; num]) (Tup [num; num])
| tk_drawdown : takes Drawdown [num] (Tup [num; int]) (Tup [num; int])
| tk_sharpe p : (1 <= p)%Z -> takes (SharpeRatio p) [num; num] num (Tup [past p [] F32; int])
| tk_skewness p : (1 <= p)%Z -> takes (Skewness p) [num] num (Tup [past p [] F32; int])
| tk_global_min d : d <> BOOL -> takes GlobalMinimum [Leaf ([], d)] (Leaf ([], d)) (Tup [Leaf ([], d); bool_])
| tk_global_max d : d <> BOOL -> takes GlobalMaximum [Leaf ([], d)] (Leaf ([], d)) (Tup [Leaf ([], d); bool_])
| tk_local_min p : (1 <= p)%Z -> takes (LocalMinimum p) [num] num (Tup [past p [] F32; int])
| tk_local_max p : (1 <= p)%Z -> takes (LocalMaximum p) [num] num (Tup [past p [] F32; int])
| tk_correlation p s : (1 <= p)%Z -> takes (Correlation p) [tf s; tf s] (tf s) (s_corr p s)
| tk_cross p l s : (1 <= p)%Z -> (1 <= l)%Z -> takes (CrossCorrelation p l) [tf s; tf s] (tf s) (s_cross p l s)
| tk_auto p l s : (1 <= p)%Z -> (1 <= l)%Z -> takes (AutoCorrelation p l) [tf s] (tf s) (Tup [s_cross p l s])
| tk_risk_ratio s l p m d : (1 <= p)%Z -> d <> BOOL ->
    takes (RiskRatioEvaluator s l p m) [num; num; num; Leaf ([], d)] (Tup [int; int; num; int])
      (Tup [num; num; num; int; int; int; s_sma p []]).

(** A user-supplied function that always works on arguments with [zs] and gives [zo]. *)
Definition fn_shaped (fn : list val -> res val) (zs : list ztype) (zo : ztype) : Prop :=
  forall args, Forall genuine args -> map sig args = zs -> exists r, fn args = Ok r /\ genuine r /\ sig r = zo.
Definition guard_shaped (fn : list val -> res tensor) (zs : list ztype) : Prop :=
  forall args, Forall genuine args -> map sig args = zs -> exists b, fn args = Ok (bsc b).

Inductive well_shaped : operator -> ztype -> ztype -> ztype -> Prop :=
| ws_step op zs zx zo zst : takes op zs zo zst -> parts zx = zs -> well_shaped op zx zo zst
| ws_stateless fn zx zo : library (make_streamable fn) -> fn_shaped fn (parts zx) zo -> well_shaped (make_streamable fn) zx zo (Tup [])
| ws_set_during v p zx d : tsig v = ([], d) -> wf v -> Forall (fun z => snd z = d) (leaves zx) ->
    well_shaped (SetDuring v p) zx zx (Tup [int])
| ws_automaton trs i d zs zx zo : library (Automaton trs i d) ->
    zx = Tup zs \/ zx = Lst zs -> Forall (fun t => guard_shaped (tr_guard t) zs /\ fn_shaped (tr_action t) zs zo) trs ->
    fn_shaped d zs zo -> well_shaped (Automaton trs i d) zx zo int
(** [n] columns. *)
| ws_map op n zx zo zs : n >= 1 -> leaves zx <> [] -> well_shaped op zx zo zs ->
    well_shaped (Map op n) (wide n zx) (wide n zo) (Tup [wide n zs])
(** The missing value 0.0 is only looked for in float32 tensors; tf.cond replaces one-element tuples (C14). *)
| ws_ffill op zx zo zs : Forall (fun z => snd z = F32) (leaves zx) -> plural zo -> plural zs \/ zs = Tup [] ->
    well_shaped op zx zo zs -> well_shaped (FFill op) zx zo (Tup [zo; zs])
| ws_join ops zx zxs zos zss :
    zx = Tup zxs \/ zx = Lst zxs -> shaped_all ops zxs zos zss -> well_shaped (Join ops) zx (Tup zos) (Tup zss)
| ws_compose ops zx zo zss : shaped_chain (rev ops) zx zo zss -> well_shaped (Compose ops) zx zo (Tup zss)
with shaped_all : list operator -> list ztype -> list ztype -> list ztype -> Prop :=
| ws_none : shaped_all [] [] [] []
| ws_more op ops zx zxs zo zos zs zss :
    well_shaped op zx zo zs -> shaped_all ops zxs zos zss ->
    shaped_all (op :: ops) (zx :: zxs) (zo :: zos) (zs :: zss)
with shaped_chain : list operator -> ztype -> ztype -> list ztype -> Prop :=
| ws_last op zx zo zs : well_shaped op zx zo zs -> shaped_chain [op] zx zo [zs]
| ws_next op ops zx zm zo zs zss :
    well_shaped op zx zm zs -> shaped_chain ops zm zo zss -> shaped_chain (op :: ops) zx zo (zs :: zss).
Scheme well_shaped_mind := Minimality for well_shaped Sort Prop
  with shaped_all_mind := Minimality for shaped_all Sort Prop
  with shaped_chain_mind := Minimality for shaped_chain Sort Prop.
Combined Scheme well_shaped_mutual from well_shaped_mind, shaped_all_mind, shaped_chain_mind.

(** The given state, if any, has [zs]. *)
Definition state_shaped (st : option val) (zs : ztype) : Prop :=
  match st with Some s => genuine s /\ sig s = zs | None => True end.
End Shapes.
