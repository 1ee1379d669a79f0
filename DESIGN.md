# Formal model of tensorstream in Coq — design

Source: `/repo` (clems4ever/tensorstream, Python, TensorFlow 1.13.1). Nothing of it is
executed. The model lives in `rocq/theories`, logical name `Verif`.

## 1. What is modelled and how

The model is a shallow, function-by-function transcription of the Python code into total
Gallina functions. Exceptions are values (`res`), Python structures are values (`pyval`),
tensors are shape + dtype + row-major data. Every definition cites its source lines.

| model file | models |
|---|---|
| `Num.v` | float32 / Python-double arithmetic as a class `FOps`; int32 with wrap-around |
| `Py.v` | nested Python values, errors; `helpers/map_fn.py`, `helpers/flatten.py`; `==` on nested structures |
| `Tensor.v` | the TensorFlow ops used by the repository (trusted reading of TensorFlow) |
| `Streamable.v` | `tf.cond`, `tf.case`, `tf.while_loop`, `TensorArray`; `streamable.py` (all of it) |
| `Meta.v` | `meta/compose.py`, `join.py`, `factory.py`, `map.py`, `ffill.py`; `helpers/any_value.py`, `any_nan.py`; `common/make_streamable.py` |
| `Common.v` | `common/common.py`, `common/__init__.py` (`transpose` is in `Frame.v`), `lag.py`, `set_during.py`, `extremum.py`, `automaton.py`, `correlation.py` |
| `Finance.v` | every file of `finance/`, `finance/signals/`, `finance/evaluators/` |
| `Frame.v` | `transpose` of `common/__init__.py` and what it uses of pandas 0.24.2 (indexing, `concat`) |
| `B32.v` | instance of `FOps`: bit-exact binary32 (and binary64 for Python floats), from the standard library's `SpecFloat` |
| `ER.v` | instance of `FOps`: real numbers extended with +oo, -oo, NaN |

An operator object is `Plain step` (subclass of `Streamable`, `step` takes inputs and state
as positional arguments) or `Meta step` (subclass of `MetaStreamable`). `call op inputs
state streamable` models `op(inputs, state, streamable)`.

### Arithmetic

`FOps` makes float32 arithmetic a parameter. Structural theorems (C01–C17, recurrences,
warm-ups, state machines, …) hold for EVERY `FOps`, so in particular for IEEE binary32 with
any summation order. Claims "in exact arithmetic" are proved for the instance `ER`.
Refutations (the code breaks an expectation) are proved by computation in `B32`.

## 2. Not modelled / simplifications (trusted base)

* Coq's kernel (8.16.1) and its `vm_compute`.
* `Tensor.v` and the first part of `Streamable.v` are my reading of TensorFlow 1.13.1:
  elementwise ops with broadcasting, `tf.cond(strict=False)` (both branches must have the same
  structure and dtypes, empty results raise, one-element lists/tuples are unpacked),
  `tf.case` (nested conds in order, `exclusive=True` asserts at most one true predicate),
  `tf.while_loop` (loop variables keep their structure), `TensorArray` (write-once),
  `tf.map_fn`, `tf.nn.moments` (mean, mean of squared differences).
* Graph construction and graph execution are one phase: a shape or type error that TensorFlow
  raises while building the graph and one raised by `session.run` are both `Err`. Shapes are
  known when the step runs (a placeholder of unknown shape is modelled by the shape it is fed).
  `set_shape` of the loop state (`check_shapes`) compares these shapes; TensorFlow compares only
  what it knows statically, which is nothing where the branches of a `tf.cond` have different
  shapes. In this repository that happens only with windows of 0 elements, in CrossCorrelation
  and AutoCorrelation, about which no theorem is then stated, and in the two recursive averages,
  whose state then keeps its shape (C71).
* dtypes other than float32, int32 and bool are not modelled; operations producing them
  (`int32 / int32` is float64) are errors, as they are in the repository because the other
  branch of the surrounding `tf.cond` has another dtype.
* tf.abs, tf.negative, tf.sign, tf.pow, sums and means of int32 tensors are errors in the model although
  TensorFlow computes them: in this repository their results only ever meet float32 tensors or a division
  in the same step and are rejected there (C70); tf.reduce_min and tf.reduce_max of int32 are modelled.
* Streaming a series of length 0 is an error in the model (`x[0]` is out of range).
* `tf.reduce_sum/mean/max/min` are abstract functions of the list of elements in index order;
  no summation order is assumed. In `B32` they are left-to-right.
* `B32` takes the logarithm as a parameter (no specification of `tf.log` at the bit level).
* An operator object is the function its `step` computes from inputs and state: no `step` of the
  repository assigns to `self` or to a global, all such assignments are in constructors (C73).
* Sessions, devices, variables, gradients, names, error messages, the test
  infrastructure and the spec files are not modelled.
* `Frame.v` is my reading of pandas 0.24.2: labels are integers, a name that occurs twice in one
  table is an error, labels that occur twice are merged by a union. C61 assumes neither occurs.
* A Python dict is the list of its items in insertion order; `nest.assert_same_structure`
  (called by `tf.map_fn`, hence in the model of `Map`) and `tf.while_loop` compare dicts
  regardless of the order of their keys.
* Integers given to constructors (periods, durations, states of an automaton) are `Z`. Those
  that meet an int32 tensor are assumed to be int32 literals: TensorFlow rejects larger ones
  when the graph is built, the model does not. Theorems that depend on it state the bound.
* Where `tf.cond` would return an `EAssert` of the branch that is not taken, it is ignored:
  it is the only error raised at run time inside a branch in this repository.

No axioms are declared. `Print Assumptions` follows every property theorem; section 5 gives
the summary.

## 3. Proof structure

1. `steps op s xs`: the user's own loop, calling the operator with `streamable=False` on each
   slice (specification). Main lemma (C01): `call … true` agrees with `steps`, in both
   directions, for every operator. C02, C03, C05–C07 follow for every operator.
2. `implements op …`: an operator computes a function `f` of the newest-first history of its
   inputs, with state `st history`. One generic theorem turns `implements` into the closed form
   of the streamed call and of resumed calls. `implements` is closed under Compose, Join,
   Map and FFill.
3. Closed forms are in `Formulas.v` (what an indicator is worth, a function of the plain list
   of past numbers, newest first, without reference to the model) and `Series.v` (what "the
   operator computes f of the history" means on tensors).
4. Real-number consequences (bounds, order, invariances) over `ER`. Facts about comparisons and
   signs are proved for every `orderly` arithmetic (`Order.v`), of which both `B32` and `ER`
   are instances, so they also hold for single precision.
5. A structure system (`Structure.v`): the nested structure of the inputs, outputs and states
   of every operator a user can build (`typed op zx zo zs`). `StructLib.v` proves it sound; it
   discharges the hypotheses "the outputs keep one structure" of C01–C04, C08, C12, C13.
6. A shape system (`Shapes.v`): shapes and dtypes instead of structures. On matching inputs it
   also proves that nothing fails, which removes every hypothesis "the call succeeds".
7. Property files `Props*.v` contain only theorems closed by `exact`, non-vacuity `Example`s,
   and `Print Assumptions`.

| files | role |
|---|---|
| `Spec`, `SpecMeta`, `SpecHelpers`, `Library`, `Series`, `Formulas`, `Order`, `Structure`, `Shapes`, `Memory`, `Linear` | vocabulary of the statements; read these with `Props*` |
| `PyFacts`, `TensorFacts`, `WfFacts`, `EvalFacts`, `StreamFacts`, `StreamProofs` | nested values, tensors, the streaming loop |
| `GenuineBase`, `Genuine`, `GenuineLib` | every operator of the library computes genuine values |
| `InitFacts`, `InitLib` | C04 |
| `RunFacts`, `JoinFacts`, `TruncFacts`, `ComposeFacts`, `NestFacts`, `MapFacts`, `FillFacts` | C08–C14 |
| `StructFacts`, `StructLib`, `StructProofs` | C48 and the library-wide versions |
| `ShapeFacts`, `ShapeOps`, `ShapeProofs`, `ShapeStream`, `ShapeInit`, `ShapeMap`, `ShapeLib`, `ShapeMain` | C49, C50 and the unconditional versions of C02, C03, C12 |
| `Implements`, `Impl*`, `Positions`, `MovingFacts`, `ReturnFacts`, `SignalFacts`, `StatFacts`, `MarketFacts`, `RiskFacts`, `CounterFacts`, `CounterSeeded` | closed forms, for every arithmetic |
| `OrderFacts`, `ZeroFacts` | consequences for every orderly arithmetic |
| `MemoryFacts` | C51 |
| `Algebra`, `AlgebraFacts`, `VectorFacts` | vocabulary and proofs of C54 |
| `Ieee` | the operations of `SpecFloat` round exact results, through Flocq |
| `Rounding`, `RoundFacts`, `RoundIeee`, `RoundMain` | vocabulary and proofs of C55 |
| `SignFacts`, `SignMain`, `SignPos`, `MonoFacts`, `MonoPos` | C56, C57 |
| `Service`, `ServiceFacts` | C58: vocabulary and proofs |
| `Vectors`, `VectorRange`, `VectorErrors` | C59: vocabulary and proofs |
| `Compound` | C62 |
| `Mirror` (vocabulary), `RealMirror`, `MirrorSign`, `SuperMirror` | C63 |
| `Fuel` (vocabulary), `FuelFacts` | C64 |
| `Nan` (vocabulary), `NanFacts`, `NanNum` | C65 |
| `Super` (vocabulary), `SuperFacts`, `SuperNum` | C66 |
| `Steady` (vocabulary), `SteadyFacts`, `SteadyTurn`, `SteadyMarket`, `SteadyIndex` | C67 |
| `Agree` (vocabulary), `AgreeFacts` | C68 |
| `Ticks` (vocabulary), `TickFacts` | C69 |
| `Ints` (vocabulary), `IntFacts`, `IntErrors` | C70 |
| `Periods` (vocabulary), `PeriodFacts`, `PeriodZero`, `PeriodZeroAtr` | C71 |
| `Roll` (vocabulary), `RollFacts` | C72 |
| `Clients` (vocabulary), `ClientFacts` | C73 |
| `Line` (vocabulary), `LineFacts` | C74 |
| `SwappedFacts` | C76 |
| `Chain` (vocabulary), `ChainFacts`, `ChainWitness` | C77 |
| `Halt` (vocabulary), `HaltFacts`, `HaltMarket`, `HaltStats` | C78 |
| `Keep` (vocabulary), `KeepFacts` | C06, shapes |
| `Raise` (vocabulary), `RaiseFacts` | C79 |
| `Rise` (vocabulary), `RiseFacts` | C80 |
| `CountFacts` | C81 |
| `FallFacts` (vocabulary in `Rise`) | C82 |
| `Fading` (vocabulary), `FadingFacts`, `FadingRate`, `ForgetFacts`, `ForgetTrend` | C83 |
| `Wrong` (vocabulary), `WrongFacts`, `WrongExtrema` | C84 |
| `TwiceFacts` (vocabulary in `Agree`) | C85 |
| `UnitsFacts` | C53 (Supertrend, drawdown, crossovers, signals) |
| `Lost` (vocabulary), `LostFacts` | C75 |
| `Wrap` (vocabulary), `WrapFacts`, `WrapPositions`, `WrapCross`, `WrapAgain` | C46 for windows, returns, momentum, correlation, bands; for crossovers, MACD, trading signals, relative strength, volatility, lagged correlations |
| `SpecFrame`, `FrameFacts` | C61: vocabulary and proofs |
| `Accuracy`, `NormFacts`, `AccuracyFacts`, `AccuracyMain`, `AccuracyMarket`, `AccuracyIeee`, `AccuracyLog`, `Index`, `AccuracyIndex`, `IndexIeee` | C60: vocabulary and proofs |
| `RealFacts`, `RealStats`, `RealMarket`, `StatReal`, `MarketReal`, `RealLinear`, `RealScale`, `RealScale2` | exact arithmetic |
| `HelperFacts`, `DetailsFacts`, `AutomatonFacts`, `StatelessFacts` | C33, C42–C47 |
| `Witness*` | concrete cases used by the `Example`s beside the theorems |
| `Conformance` | the model run in `B32` on the data of the repository's own spec files (tests, not proofs; generated by `tools/gen_conformance.py`) |
| `Props*` | the property theorems |

`tools/mutate.py` runs the proofs against the wrong programs of `seeded/mutations.py` in a
scratch copy; `seeded/LOG.jsonl` records the outcome.

### Where the code breaks the expectation

The theorem then states what the code does, and a `_refuted` theorem or an exact
characterisation records the difference: surplus inputs spill into the state parameters (C04),
Join drops surplus operators (C10), FFill over a one-element-tuple state never streams (C14),
a spurious -1 of the MACD signal pipeline (C27; the sheet `macd_signals.ods` of the repository
expects 0 there), NaN of RSI on constant series (C28), the true range ignores a last close of 0
(C29), Supertrend aborts when both exclusive predicates hold (C30), Heikin-Ashi uses the raw
previous candle (C31), drawdown ignores rises below 1e-4 (C32), details of a resumed stream
(C33), NaN correlation of constant windows (C39), a position bought with stop price 0 is
forgotten (C38), Select with a tuple never streams (C45), counters wrap (C46),
ExponentialMovingAverage(0) and RollingMovingAverage(0) stream meaningless numbers (C71).

## 4. Plan per property

| id | modelled by | proof |
|---|---|---|
| C01 | `call`, `call_streamed`, `stream_body`, TensorArray | loop invariant over the while loop; both directions |
| C02 | same | from C01: steps over an appended list |
| C03 | same | from C01 |
| C04 | every operator's `step` | case analysis of each step; closure under meta operators |
| C05 | `input_size` | the size check fails for unequal leading dimensions |
| C06 | `check_types_equality` and `check_shapes` (the `set_shape` of the loop) in `stream_body`; vocabulary in Keep.v | loop invariant, and the traversal that compares two nested values (KeepFacts.v) |
| C07 | `ta_stack` | from C01 |
| C08 | `Compose` | induction on the list of operators with C01 |
| C09 | `Join` | induction with C01 |
| C10 | `Join` | truncation of `combine` |
| C11 | `Factory` | unfolding (definitional in the code as well), plus the stream of each instance |
| C12 | `Map`, `tf_map_fn` | loop invariant over columns, then C01 per column |
| C13 | `FFill`, `any_value` | induction over the series |
| C14 | `FFill`, `tf_cond` | unpacking changes the state structure, so the type check fails |
| C15 | `Lag` | `implements` |
| C16 | `SetDuring` | `implements` |
| C17–C20 | `SimpleMovingAverage`, `ExponentialMovingAverage`, `RollingMovingAverage`, `MovingStandardDeviation` | `implements`; real-number facts in `ER` |
| C21 | `BollingerBands` | `implements`; order in `ER` |
| C22–C23 | `Return`, `LogarithmicReturn`, `Momentum` | `implements`, Compose closure |
| C24 | `MovingAverageConvergenceDivergence` | `implements` |
| C25–C27 | crossover and signals | Compose/Join closure; refutation by computation |
| C28 | `RelativeStrengthIndex` | `implements`; range in `ER` |
| C29 | `AverageTrueRange` | `implements`; sign in `ER` |
| C30 | `Supertrend` | invariant on successful steps; abort witness in `B32` |
| C31 | `HeikinAshi` | `implements`; order in `ER` |
| C32–C33 | `Drawdown`, `details`, `avg` | `implements`; list induction |
| C34–C36 | `SharpeRatio`, `Skewness`, `Volatility` | `implements`; algebra in `ER` |
| C37–C38 | `RiskRatioEvaluator` | state invariant; witnesses in `B32` |
| C39–C40 | `Correlation`, `CrossCorrelation`, `AutoCorrelation` | `implements`; Cauchy–Schwarz in `ER` |
| C41 | extrema | `implements` |
| C42 | `Automaton` | induction on the transition table; invariant |
| C43–C44 | `any_value`, `any_nan`, `map_fn`, `flatten` | structural induction |
| C45 | `common.py` | `implements`; `Select` of a tuple fails |
| C46 | int32 counters, slices up to a negative counter (`Wrap.v`) | `implements` with wrapped counter; what is read at every position by cases on the counter modulo 2^32 |
| C47 | `filter_with_mask`, `map_consecutive_fn` | loop invariant |
| C48 | every operator's `step` | structure system, sound by case analysis of each step and induction on the operator |
| C49 | every operator's `step`, `call` | shape system (`Shapes.v`): each step succeeds on matching shapes (weakest preconditions), induction on the operator and on the series |
| C50 | same | the initial states built by each step are constants of the shapes; induction on the operator |
| C51 | closed forms of the windowed operators | each formula only reads the last k elements of the history; geometric fading by induction on the common suffix |
| C52 | closed forms over `ER` | the formulas are linear functions of the history, by induction |
| C53 | closed forms over `ER` | effect of an affine map on means, variances, covariances, changes and ranges; Supertrend by induction on the bars (both runs stay proportional); Drawdown through its running peak, with a witness below its tolerance; signals through the sign of a rescaled difference |
| C54 | `call`, meta operators | both sides are reduced to their positions by C08, C09, C12, C13 and C49; closed forms for the vectorised operators |
| C55 | averages, momentum, crossover, MACD | one step of each recursion multiplies the error by at most 1 - 1/(p+1) (resp. 1 - 1/2p) and adds a constant, so the error stays below the fixed point; the error of each operation comes from Flocq's rounding theorems; both calls are reduced to their closed forms |
| C56 | averages, deviation, bands, RSI, ATR, drawdown, Heikin-Ashi in `B32` | the sign of a rounded result is the sign before rounding (every case of `SpecFloat`'s operations); rounding is monotone and leaves numbers of the format alone, so adding something not negative never lowers a number; extrema by the fold lemma of `Order`; the refutations run the operators |
| C57 | averages in `B32` | a rounded sum, product or quotient, infinities included, is a monotone function of the operands (rounding is monotone, overflow clips); induction over the window and over the recursion |
| C58 | `call` | a user program (pieces, saved progress, crashes) is a transition system over `call`; invariant: the log is a prefix of the single call's outputs and the state is the one after that prefix (C02, C03) |
| C59 | `AverageTrueRange` and the operators with a `tf.cond` on their input | over a tensor of any shape: the maximum runs over all elements (closed form as in C29); a predicate of rank 1 or more is an error in every execution of the first step |
| C60 | deviation, bands, returns, volatility, average true range, Heikin-Ashi, drawdown, relative strength index | each formula's rounding error against its formula over the reals, the latter proved Lipschitz (Minkowski's inequality for deviations, linearity for averages); comparisons, extrema and absolute values are exact; the logarithm, a parameter of the model, is assumed accurate in the statement, and an accurate one is exhibited; the relative strength index, a quotient of two averages, is bounded relative to the average move (a quotient whose divisor vanishes has no absolute bound) |
| C61 | `transpose` | list induction over the fields; the union of labels by permutation and sortedness |
| C62 | `Return`, `LogarithmicReturn`, `Momentum` over `ER` | from the positions of C22 and C23; telescoping products and sums |
| C63 | extrema, `RelativeStrengthIndex`, `Skewness`, `SharpeRatio`, correlations, `BollingerBands`, `AverageTrueRange`, `Supertrend`, `HeikinAshi` over `ER`; `ZeroCrossoverSignal` over any orderly arithmetic | formulas of the mirrored history compared with those of the history (gains become losses, maxima minima); zero crossings from C26 |
| C64 | `tf_while` in `call_streamed`, `Map`, `filter_with_mask` | each body increments the counter, so the number of rows is enough; every other definition is followed through its sequencing, by induction over the operators |
| C65 | streaming of the operators named in the property; `tf.sign` is 0 on NaN, as TensorFlow documents | from the closed forms: a window or a history containing NaN has a NaN sum, hence a NaN mean, deviation or average, by induction over the history for the recursive ones |
| C66 | streaming of `Supertrend` and `AverageTrueRange`; the trend is read from the returned state | from the closed form of C30; that the lines never cross is an invariant: the previous usable close stays between them; the refutation is a family of series indexed by period and factor |
| C67 | two streamed calls of the same operator on series that are close, exact arithmetic | each closed form of C02–C30 is a Lipschitz function of its history, with a factor that does not depend on the length; pipelines by induction over the chain (C54) |
| C68 | streamed calls of different operators on one series, exact arithmetic | the closed forms of C02–C30 on the same history; the inequalities of Chebyshev, Samuelson and Popoviciu for the window, linearity of the rolling average for the index |
| C69 | streamed calls over any arithmetic that rounds sums, differences and quotients to a nearest float32 and adds up lists in any order; float32 is one, whatever its order | induction on the way a sum is bracketed and permuted: every partial sum is a whole number of at most 2^24 ticks, hence representable |
| C70 | streamed calls over int32 series (extrema, arithmetic); calls and streamed calls of every float operator given tensors of another dtype | the buffer of the last whole numbers as invariant; inversion of each step function, dtypes followed through the operations it applies |
| C71 | calls and streamed calls of every windowed operator with a period below one | inversion of each step function: `zeros_buffer` of a negative size, index -1 of an empty buffer, or the buffer grows from 0 to 1 element and fails `check_shapes`; `implements` for the two averages and the true range that do stream |
| C72 | `roll`, `shift`, `any_value`, `any_nan` | rows of a concatenation; induction over the values pushed; inversion of `map_fn` |
| C73 | `call` under schedules of many users (`Clients.v`, on top of `Service.v`) | the schedule projected to one user is the service of C58 |
| C74 | the operators over lines and geometric series, exact arithmetic (`Line.v`) | closed forms over histories, sums of powers, induction on the position |
| C75 | averages, windows, differences and ratios in any arithmetic where infinities spread (`Lost.v`); `B32`, `ER` | laws by cases on the operands, induction over the window and over the recursion; the overflow is computed once and kept by the recursion |
| C76 | crossovers, MACD and the crossover signal with the shorter period first, exact arithmetic | the formulas over histories, the sides of the crossover, induction on the position for the signal line |
| C77 | `Compose` of averages, momentums, lags and crossovers over `ER` | every stage is a weighted sum of the last numbers; weighted sums of a sequence without beginning commute; induction on the pipeline |
| C78 | averages, bands, returns, MACD, RSI, drawdown, true range, Supertrend, skewness, Sharpe ratio, correlations over `ER` on series that stay constant from a position on | the history after the stop is a constant list before the old history; induction on its length; for Supertrend the invariant that the line of the trend is between the price and the price less (plus) the reach |
| C79 | `base_streamable`, `call_streamed`, Compose, Join, Map, FFill | a successful call contains a successful step of every operator it runs; induction on the list of operators; a witness for the truncated state |
| C80 | averages, crossovers, MACD, extrema, drawdown and RSI over `ER` on non-decreasing series | one general average (mean of the first p, then a step of a part a) of which both the exponential and the rolling average are instances; its order in a and p by induction on the history |
| C81 | Compose, Join, `call_streamed` with a state of any length | the pairing of operators and states is cut at the shorter list; two operators that agree on the states of an invariant answer alike, streamed or not; a change in the number of states fails the type check of the first step |
| C82 | the same operators over falling series of real numbers | C80 for the negated series, every formula being odd; the signal by the side of a list without positive numbers; peak and drawdown by induction on the position |
| C83 | averages, MACD and true range over two real series with the same continuation | the distance of two averages is a power of the kept part times the distance at the fork, bounded by the bound of the pasts; the signal line by induction over lines that are close from some point on; the operators that never forget by the theorems on rising and falling series, Supertrend by an invariant of its two lines |
| C84 | the three averages, momentum, the MACD, the extrema and the drawdown over a real series and the same series with one number changed | the outputs are the recurrences over the reals; the error follows the same recurrence with a single impulse, by induction on the position |
| C85 | `Compose` of two extremum operators over a real series | every extremum is characterised by positions (it is one of the numbers of its window and none is more extreme); the windows of the windows cover exactly the joint window |

## 5. Assumptions

`tools/assumptions.py` prints the list below from a built tree.

* "Closed under the global context": every theorem of `PropsAlgebra`, `PropsFill`, `PropsFrame`, `PropsFuel`, `PropsHelpers`, `PropsInit`, `PropsInts`,
  `PropsLost` (except `C75_exact`), `PropsWrap`, `PropsWrapComp`, `PropsMap`, `PropsMarket`, `PropsMemory`, `PropsMeta`, `PropsMoving`, `PropsNan` (except `C65_exact`), `PropsReturns` (except
  `zero_arithmetic`), `PropsRisk`, `PropsSignal` (except `orderly_arithmetic`), `PropsStats`,
  `PropsPeriods` (except the three `_refuted` theorems), `PropsRoll`, `PropsChain` (except `C77_any_order`), `PropsClients`, `PropsCount`, `PropsRaise`, `PropsService`, `PropsShape`, `PropsStream`, `PropsStructure`, `PropsVector`, and `C66_float32`, `C66_turns`, `C66_moves`, `C66_trailing`, `C66_never_aborts`.
* `ClassicalDedekindReals.sig_forall_dec`, `ClassicalDedekindReals.sig_not_dec`,
  `FunctionalExtensionality.functional_extensionality_dep`, `Classical_Prop.classic` (the
  standard library's real numbers): every theorem of `PropsAccuracy`, `PropsCompound` (except
  `C62_float32_refuted`), `PropsLinear`, `PropsMarketReal`, `PropsMirror` (except `C63_crossings` and
  `C63_leading_zero_refuted`), `PropsMovingReal`, `PropsRounding`, `PropsSigns` (except `C56_deviation`, `C56_heikin_ashi` and the refutations, which are
  closed), `PropsStatsReal`, `PropsSteady`, `PropsAgree`, `PropsTicks`, `PropsLine`, `PropsSwapped`, `PropsChain` (`C77_any_order`), `PropsHalt`, `PropsRise`, `PropsFall`, `PropsFading`, `PropsWrong`, `PropsTwice`, `PropsUnits`, `C71_ema_zero_refuted`, `C71_rma_zero_refuted`, `C71_atr_zero_refuted`, `C65_exact`, `C75_exact`, `C66_exact`, `C66_safe_factor`, `C66_smaller_factor_refuted`, and `zero_arithmetic`, `orderly_arithmetic` (their second half is about
  the instance `ER`).

Other axioms of the standard library that a checker may list (`Rdefinitions`, `ssrunder`) are
module-type fields of files that are merely loaded.
