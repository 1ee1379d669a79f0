{"id": "C01", "title": "Streaming equals stepping", "statement": "Calling an operator on a whole time series returns, at position i, exactly the output obtained by calling it with streamable=False on the i-th slice of the inputs with the state left by position i-1; the returned state is the one left by the last position.", "quantifier": "every operator, every nested input structure, every series length >= 1, every initial state", "why_tests_cant": "the loop invariant must hold for every series length and every user-defined operator; tests use six-element series and a handful of operators", "anchors": ["tensorstream/streamable.py: Streamable.call_streamed", "tensorstream/streamable.py: Streamable.__call__", "tensorstream/streamable.py: Streamable.forward_step"]}
{"id": "C02", "title": "Chunked streaming (resume)", "statement": "Streaming a series in two consecutive chunks, passing the state returned by the first call to the second call, gives the concatenation of outputs, the same final state and the same initial state as streaming the concatenated series in one call.", "quantifier": "every operator, every split point, every pair of non-empty chunks, every (or no) provided initial state", "why_tests_cant": "quantifies over all operators and all split points; no test resumes a stream at all", "anchors": ["tensorstream/streamable.py: Streamable.call_streamed"]}
{"id": "C03", "title": "Causality", "statement": "The outputs for the first n positions do not depend on inputs after position n: streaming a prefix succeeds whenever streaming the whole series does, and returns the corresponding prefix of the outputs.", "quantifier": "every operator, every series, every prefix length >= 1", "why_tests_cant": "absence of look-ahead is a statement about all possible futures of a series", "anchors": ["tensorstream/streamable.py: Streamable.call_streamed"]}
{"id": "C04", "title": "Returned initial state is the default state", "statement": "The third component returned by a call without state is the initial state really used: passing it explicitly to the same call gives the same outputs, the same next state and the same initial state.", "quantifier": "every operator shipped by the library with every parameter value, every composition of them with Compose, Join, Map and FFill, every input", "why_tests_cant": "must hold for all inputs, shapes and nestings of meta operators", "anchors": ["tensorstream/streamable.py: Streamable.__call__", "tensorstream/meta/compose.py: Compose.step", "tensorstream/meta/join.py: Join.step", "tensorstream/meta/map.py: Map.step", "tensorstream/meta/ffill.py: FFill.step", "tensorstream/finance/", "tensorstream/common/"]}
{"id": "C05", "title": "Unequal series lengths are rejected", "statement": "Streaming inputs whose leaves do not all have the same length is always an error, whatever the nesting of the inputs; no output is produced.", "quantifier": "every operator, every nested input structure with two leaves of different length", "why_tests_cant": "one pair of sizes is tested; the check is a fold over an arbitrary number of leaves of arbitrary nesting", "anchors": ["tensorstream/streamable.py: Streamable.call_streamed", "tensorstream/helpers/flatten.py: flatten"]}
{"id": "C06", "title": "State types and shapes are preserved or rejected", "statement": "If an operator ever returns a next state whose nested dtype structure differs from the current one, the streamed call raises; whenever a streamed call succeeds the final state has the same nested dtype structure as the initial state, so it can be fed back. The same holds of shapes: a step that gives a tensor of the state another shape makes the streamed call raise, and after a successful call every tensor of the state has the shape it started with.", "quantifier": "every operator, every series, every state", "why_tests_cant": "the bad transition may occur for any operator and state shape", "anchors": ["tensorstream/streamable.py: Streamable.call_streamed", "tensorstream/streamable.py: Streamable.check_types_equality", "tensorstream/streamable.py: Streamable.to_type"]}
{"id": "C07", "title": "Outputs have the length of the inputs", "statement": "Every tensor in the outputs of a successful streamed call has the input length as its leading dimension.", "quantifier": "every operator, every nested output structure, every series length", "why_tests_cant": "quantifies over all operators and nestings", "anchors": ["tensorstream/streamable.py: Streamable.call_streamed"]}
{"id": "C08", "title": "Compose is function composition of streams", "statement": "Streaming Compose(f1,...,fk) over a series gives the outputs of streaming fk, then f(k-1) over those outputs, ..., then f1; the state is the tuple of the individual states, rightmost operator first; nesting Compose does not change outputs.", "quantifier": "every list of operators, every series", "why_tests_cant": "ordering and state threading must be right for any number of operators and steps", "anchors": ["tensorstream/meta/compose.py: Compose"]}
{"id": "C09", "title": "Join runs operators independently", "statement": "Streaming Join(f1,...,fk) over a k-tuple of inputs yields the k-tuple whose i-th component is the stream of fi over the i-th input alone; no operator sees the input or state of another.", "quantifier": "every list of operators, every k-tuple of series", "why_tests_cant": "non-interference is a property of all operators and inputs", "anchors": ["tensorstream/meta/join.py: Join"]}
{"id": "C10", "title": "Join silently truncates on arity mismatch", "statement": "When Join is given fewer (or more) inputs than operators it does not raise: it runs only the first min(k, number of inputs) operators and returns that many outputs.", "quantifier": "every list of operators and every input tuple of a different length", "why_tests_cant": "the behaviour is an accident of zip for every arity pair; no test exercises it", "anchors": ["tensorstream/meta/join.py: Join.step"]}
{"id": "C11", "title": "Factory is Join of the instances", "statement": "Factory(cls, [a1,...,ak]) behaves exactly like Join(cls(*a1),...,cls(*ak)).", "quantifier": "every operator class and every list of argument lists", "why_tests_cant": "quantifies over all constructors", "anchors": ["tensorstream/meta/factory.py: Factory"]}
{"id": "C12", "title": "Map applies the operator column by column", "statement": "Streaming Map(op, n) over a series of n columns yields in column j exactly the stream of op over column j alone, each column keeping its own state; with a stateful operator, a column count different from n is an error.", "quantifier": "every operator whose initial state does not depend on input values, every n >= 1, every series", "why_tests_cant": "per-column isolation must hold for every n and every operator", "anchors": ["tensorstream/meta/map.py: Map.step"]}
{"id": "C13", "title": "FFill holds output and state over missing rows", "statement": "FFill(op) treats a row in which some input tensor contains 0.0 as missing: at such rows the previous output is repeated (zeros if none) and the state of op does not advance; the outputs at the other rows are exactly those of streaming op over the non-missing rows only.", "quantifier": "every operator, every series, every pattern of missing rows", "why_tests_cant": "all interleavings of missing and present rows", "anchors": ["tensorstream/meta/ffill.py: FFill.step", "tensorstream/helpers/any_value.py: any_value"]}
{"id": "C14", "title": "FFill rejects one-element-tuple states", "statement": "FFill over an operator whose state is a one-element tuple (SetDuring, Map, AutoCorrelation, Compose or Join of a single operator) can never be streamed: the call raises the state-type error for every series.", "quantifier": "every operator with one-element-tuple states, every non-empty series", "why_tests_cant": "must fail for every input, not for one", "anchors": ["tensorstream/meta/ffill.py: FFill.step"]}
{"id": "C15", "title": "Lag delays the series", "statement": "Lag(p) outputs at position n the input of position n-p, and zeros for n < p.", "quantifier": "every period p >= 1, every tensor shape and dtype, every series", "why_tests_cant": "unbounded lengths, periods and shapes", "anchors": ["tensorstream/common/lag.py: Lag.step", "tensorstream/common/__init__.py: roll"]}
{"id": "C16", "title": "SetDuring overrides exactly the first positions", "statement": "SetDuring(v, p) replaces every tensor of the inputs by v for positions n < p and passes them unchanged from position p on.", "quantifier": "every nested input structure, every period, every series", "why_tests_cant": "unbounded lengths and nestings", "anchors": ["tensorstream/common/set_during.py: SetDuring.step"]}
{"id": "C17", "title": "SimpleMovingAverage is the mean of the last p values", "statement": "SimpleMovingAverage(p) outputs zeros for n < p-1 and, from n = p-1 on, elementwise the sum of the last p inputs divided by p; it depends on no other input.", "quantifier": "every p >= 1, every tensor shape, every float series of fewer than 2^31 steps", "why_tests_cant": "ring-buffer correctness for all periods, lengths and shapes", "anchors": ["tensorstream/finance/moving_average.py: SimpleMovingAverage.step", "tensorstream/common/__init__.py: roll"]}
{"id": "C18", "title": "ExponentialMovingAverage recurrence and bounds", "statement": "ExponentialMovingAverage(p) equals the simple moving average up to position p-1 and x_n*k + e_(n-1)*(1-k), k = 2/(p+1), afterwards; in exact arithmetic it is always between the smallest and the largest input seen so far from position p-1 on.", "quantifier": "every p >= 1, every float series", "why_tests_cant": "unbounded recurrence; convexity bound over all reals", "anchors": ["tensorstream/finance/moving_average.py: ExponentialMovingAverage.step"]}
{"id": "C19", "title": "RollingMovingAverage recurrence and bounds", "statement": "RollingMovingAverage(p) equals the simple moving average up to position p-1 and (r_(n-1)*(p-1) + x_n)/p afterwards; in exact arithmetic it stays between the smallest and largest input seen and is nonnegative on nonnegative inputs.", "quantifier": "every p >= 1, every float series", "why_tests_cant": "unbounded recurrence; bound over all reals", "anchors": ["tensorstream/finance/moving_average.py: RollingMovingAverage.step"]}
{"id": "C20", "title": "MovingStandardDeviation", "statement": "MovingStandardDeviation(p) outputs zeros for n < p-1 and then the population standard deviation of the last p inputs; in exact arithmetic it is nonnegative, zero exactly on constant windows, invariant under adding a constant to the series.", "quantifier": "every p >= 1, every float series, every shape", "why_tests_cant": "all windows and all reals", "anchors": ["tensorstream/finance/moving_standard_deviation.py: MovingStandardDeviation.step"]}
{"id": "C21", "title": "BollingerBands", "statement": "BollingerBands(n, k) outputs (m - k*s, m, m + k*s) where m and s are the streams of SimpleMovingAverage(n) and MovingStandardDeviation(n); for k >= 0 lower <= middle <= upper at every position.", "quantifier": "every n >= 1, every k, every float series", "why_tests_cant": "relation between two stateful operators at all positions", "anchors": ["tensorstream/finance/bollinger_bands.py: BollingerBands.step"]}
{"id": "C22", "title": "Return and LogarithmicReturn", "statement": "Return(p) outputs 0 for n < p or when x_(n-p) = 0 and x_n/x_(n-p) - 1 otherwise; LogarithmicReturn(p) likewise with log(x_n/x_(n-p)).", "quantifier": "every p >= 1, every scalar float series", "why_tests_cant": "warm-up boundary and zero guard for all series", "anchors": ["tensorstream/finance/returns.py: Return.step", "tensorstream/finance/returns.py: LogarithmicReturn.step"]}
{"id": "C23", "title": "Momentum", "statement": "Momentum(p) outputs 0 for n < p and x_n - x_(n-p) afterwards.", "quantifier": "every p >= 1, every float series of any shape", "why_tests_cant": "a pipeline of five operators over all lengths", "anchors": ["tensorstream/finance/momentum.py: Momentum"]}
{"id": "C24", "title": "MACD", "statement": "MovingAverageConvergenceDivergence(slow, fast, m) outputs the slow and fast exponential averages, their difference fast-slow (0 before position slow-1), the exponential average of period m of that difference started at position slow-1 (0 before), and the histogram macd-signal (0 before position slow+m-2).", "quantifier": "every slow, fast, m >= 1, every float series", "why_tests_cant": "nested recurrences with three different warm-ups", "anchors": ["tensorstream/finance/moving_average_convergence_divergence.py: MovingAverageConvergenceDivergence.step"]}
{"id": "C25", "title": "SimpleMovingAverageCrossover", "statement": "SimpleMovingAverageCrossover(slow, fast) with fast <= slow outputs zero for n < slow-1 and SMA_fast - SMA_slow afterwards.", "quantifier": "every 1 <= fast <= slow, every float series", "why_tests_cant": "pipeline over all lengths and periods", "anchors": ["tensorstream/finance/moving_average_crossover.py: SimpleMovingAverageCrossover"]}
{"id": "C26", "title": "ZeroCrossoverSignal alternates", "statement": "ZeroCrossoverSignal emits only -1, 0, 1; a nonzero signal has the sign of the current value and is emitted exactly when that sign differs from the sign of the last nonzero value (a leading zero counting as positive); two consecutive nonzero signals are always opposite; the first output is 0.", "quantifier": "every float series (without NaN)", "why_tests_cant": "alternation is a property of whole histories", "anchors": ["tensorstream/finance/signals/zero_crossover_signal.py: ZeroCrossoverSignal.step"]}
{"id": "C27", "title": "Trading-signal pipelines", "statement": "MovingAverageConvergenceDivergenceSignal and SimpleMovingAverageCrossoverSignal emit 0 during their warm-up (slow+macd-2 resp. slow positions) and afterwards exactly the zero-crossover signal of the MACD histogram resp. of the crossover; because the warm-up zeros count as positive, the MACD signal emits -1 at the first defined position whenever the first histogram value is negative although nothing crossed.", "quantifier": "every parameters >= 1, every float series", "why_tests_cant": "pipelines over all lengths; the spurious first signal depends on the warm-up length", "anchors": ["tensorstream/finance/signals/moving_average_convergence_divergence_signal.py", "tensorstream/finance/signals/moving_average_crossover_signal.py"]}
{"id": "C28", "title": "RelativeStrengthIndex", "statement": "RelativeStrengthIndex(p) outputs 0 for n < p, then 100 - 100/(1 + G/L) with Wilder averages G, L of gains and losses seeded by the plain averages of the first p changes; in exact arithmetic with IEEE special values it lies in [0,100] except that it is NaN exactly when G = L = 0 (e.g. constant prices).", "quantifier": "every p >= 1, every finite scalar series", "why_tests_cant": "unbounded recurrence, division by zero on rare inputs", "anchors": ["tensorstream/finance/relative_strength_index.py: RelativeStrengthIndex.step"]}
{"id": "C29", "title": "AverageTrueRange", "statement": "AverageTrueRange(p) is the rolling moving average of the true range max(high-low, |high-prevclose|, |low-prevclose|), the two last terms being 0 at the first position or when the previous close is 0; it is never negative.", "quantifier": "every p >= 1, every triple of finite scalar series", "why_tests_cant": "all histories; the zero-close special case is rare in data", "anchors": ["tensorstream/finance/average_true_range.py: AverageTrueRange.step"]}
{"id": "C30", "title": "Supertrend", "statement": "Whenever streaming Supertrend succeeds, its output is 0 while the average true range is 0 and otherwise one of the two trend lines computed by the published recurrences; but on some well-formed price series (low <= close <= high, positive) the call aborts because the two mutually exclusive trend conditions hold together.", "quantifier": "every period, factor and triple of series", "why_tests_cant": "the abort needs a price gap pattern absent from test data", "anchors": ["tensorstream/finance/supertrend.py: Supertrend.step"]}
{"id": "C31", "title": "HeikinAshi", "statement": "HeikinAshi outputs the raw candle at the first position (and after a candle whose open is 0) and otherwise open=(previous raw open+previous raw close)/2, close=mean of the four prices, low/high the min/max of raw low/high with these; then low <= open, close <= high.", "quantifier": "every quadruple of finite scalar series", "why_tests_cant": "candle well-formedness over all histories", "anchors": ["tensorstream/finance/heikin_ashi.py: HeikinAshi.step"]}
{"id": "C32", "title": "Drawdown", "statement": "Drawdown outputs min(0, x_n/peak-1) where peak is the running maximum (at least 0) of the preceding values, 0 while |peak| < 1e-4, and the number of consecutive positions since the peak last rose by more than 1e-4; for nonnegative series the drawdown lies in [-1, 0].", "quantifier": "every scalar float series", "why_tests_cant": "running maxima over arbitrary histories; sub-tolerance rises", "anchors": ["tensorstream/finance/drawdown.py: Drawdown.step"]}
{"id": "C33", "title": "Drawdown periods", "statement": "drawdown.details applied to the two output series of a fresh Drawdown stream returns, in order, for every maximal run of positive under-water counts its minimum drawdown and its length; drawdown.avg returns the means of these. On the outputs of a resumed stream that starts under water it fails.", "quantifier": "every pair of series produced by a fresh Drawdown stream", "why_tests_cant": "all run patterns; the failure needs a resumed stream", "anchors": ["tensorstream/finance/drawdown.py: details", "tensorstream/finance/drawdown.py: avg", "tensorstream/common/__init__.py: filter_with_mask", "tensorstream/common/__init__.py: map_consecutive_fn"]}
{"id": "C34", "title": "SharpeRatio", "statement": "SharpeRatio(p) outputs mean/stddev of the last min(n+1,p) excess returns, 0 when that standard deviation is 0.", "quantifier": "every p >= 1, every pair of scalar float series", "why_tests_cant": "growing then sliding window for all lengths", "anchors": ["tensorstream/finance/sharpe_ratio.py: SharpeRatio.step"]}
{"id": "C35", "title": "Skewness", "statement": "Skewness(p) outputs 0 on windows of zero deviation and otherwise, in exact arithmetic, the third central moment of the last min(n+1,p) values divided by the cube of their standard deviation.", "quantifier": "every p >= 1, every scalar float series", "why_tests_cant": "an algebraic identity over all reals", "anchors": ["tensorstream/finance/skewness.py: Skewness.step"]}
{"id": "C36", "title": "Volatility", "statement": "Volatility(m, r) outputs 0 for n < max(m, r) and then the standard deviation of the last m logarithmic returns of period r as emitted by LogarithmicReturn; with r = 1 these are all defined returns, with r >= 2 and m >= 2 the first outputs after the warm-up still include placeholder zeros.", "quantifier": "every m, r >= 1, every positive scalar series", "why_tests_cant": "interplay of two warm-ups for all parameter pairs; only r = 1 is tested", "anchors": ["tensorstream/finance/volatility.py: Volatility"]}
{"id": "C37", "title": "RiskRatioEvaluator accounting", "statement": "At every position 0 <= successful <= total; the emitted signal is 1, 0 or -1; total increases by one exactly when -1 is emitted; a buy (1) is emitted only with no open position and input signal 1; a position is closed as soon as low <= stop or high >= limit, stop taking precedence, or when its duration reaches the maximum.", "quantifier": "every parameters, every series of prices and signals", "why_tests_cant": "invariants over all trading histories", "anchors": ["tensorstream/finance/evaluators/risk_ratio_evaluator.py: RiskRatioEvaluator.step"]}
{"id": "C38", "title": "RiskRatioEvaluator loses positions with a zero stop", "statement": "A buy whose computed stop price is exactly 0 is forgotten: the next position behaves as if nothing had been bought, so two buys can follow each other without a sell and the first bet is never counted; if no computed stop is 0, buys and sells strictly alternate.", "quantifier": "every history; the failing ones are those hitting close = stop_factor*volatility", "why_tests_cant": "a sentinel collision that random tests never hit", "anchors": ["tensorstream/finance/evaluators/risk_ratio_evaluator.py: RiskRatioEvaluator.step"]}
{"id": "C39", "title": "Correlation", "statement": "Correlation(p) outputs 0 for n < p and then the population correlation coefficient of the last p pairs; in exact arithmetic it lies in [-1,1], and it is NaN exactly when one of the windows is constant.", "quantifier": "every p >= 1, every pair of finite series", "why_tests_cant": "Cauchy-Schwarz over all windows; NaN on constant windows", "anchors": ["tensorstream/common/correlation.py: Correlation.step"]}
{"id": "C40", "title": "CrossCorrelation and AutoCorrelation", "statement": "CrossCorrelation(p, l) outputs 0 for n < l+p and then the correlation of the last p values of the first series with the values of the second series l positions earlier; AutoCorrelation(p,l) is CrossCorrelation of a series with itself.", "quantifier": "every p, l >= 1, every pair of series", "why_tests_cant": "two nested warm-ups over all lengths", "anchors": ["tensorstream/common/correlation.py: CrossCorrelation.step", "tensorstream/common/correlation.py: AutoCorrelation.step"]}
{"id": "C41", "title": "Global and local extrema", "statement": "GlobalMinimum/GlobalMaximum output the minimum/maximum of all values so far; LocalMinimum(p)/LocalMaximum(p) that of the last min(n+1,p) values; every output is one of the inputs.", "quantifier": "every p >= 1, every scalar series without NaN", "why_tests_cant": "all histories and windows; negative and positive values alike", "anchors": ["tensorstream/common/extremum.py"]}
{"id": "C42", "title": "Automaton takes the first enabled transition", "statement": "At each position the automaton fires the first listed transition whose source is the current state and whose guard holds on the inputs, emitting its action and moving to its target; with no enabled transition it emits the default action and keeps its state. From the initial state the reached state is always the initial state or the target of a transition.", "quantifier": "every transition table, every series, every state", "why_tests_cant": "all tables and input histories", "anchors": ["tensorstream/common/automaton.py: Automaton.step"]}
{"id": "C43", "title": "any_value and any_nan", "statement": "any_value(inputs, v) is true iff some element of some tensor in the nested inputs equals v; any_nan iff some element is NaN.", "quantifier": "every nested structure of float tensors of any shape", "why_tests_cant": "unbounded nesting and sizes", "anchors": ["tensorstream/helpers/any_value.py: any_value", "tensorstream/helpers/any_nan.py: any_nan", "tensorstream/helpers/flatten.py: flatten"]}
{"id": "C44", "title": "map_fn and flatten laws", "statement": "map_fn over one structure preserves its shape, keys and order and applies the function to every leaf; with the identity it is the identity; flatten lists the leaves in order; flatten of a mapped structure is the mapped flatten.", "quantifier": "every nested structure of lists, tuples and dicts", "why_tests_cant": "structural induction over unbounded nesting", "anchors": ["tensorstream/helpers/map_fn.py: map_fn", "tensorstream/helpers/flatten.py: flatten"]}
{"id": "C45", "title": "Stateless common operators", "statement": "Add, Sub, Mul, Fork(k), Identity, Select(list or index), Positive and Negative stream as pointwise maps with empty state; Positive and Negative output only 0 and 1 and are never both 1; Select with a tuple of indices can never be streamed.", "quantifier": "every series, shape, index list", "why_tests_cant": "all series and shapes; Select with a tuple is untested", "anchors": ["tensorstream/common/common.py", "tensorstream/common/make_streamable.py"]}
{"id": "C46", "title": "Iteration counters wrap after 2^31 steps", "statement": "The warm-up counters are 32-bit: after 2^31 consecutive positions (over resumed streams) SimpleMovingAverage and MovingStandardDeviation re-enter their warm-up and output zeros again, SetDuring overrides its inputs again, and ExponentialMovingAverage and RollingMovingAverage turn into simple averages of the last p values; Return, LogarithmicReturn, Momentum and Correlation output zeros again and the Bollinger bands close on 0; LocalMinimum, LocalMaximum, Skewness and SharpeRatio read an empty window (in float32: +infinity, -infinity, NaN, NaN) until p positions before the counter is 0 again; MACD's line, signal and histogram, the crossover of simple averages, both trading signals, RelativeStrengthIndex, Volatility, CrossCorrelation, AutoCorrelation and any composition under SetDuring output zeros (or the constant of SetDuring) again; below that bound they never do.", "quantifier": "every history length", "why_tests_cant": "needs 2^31 steps to observe", "anchors": ["tensorstream/finance/moving_average.py: SimpleMovingAverage.step", "tensorstream/common/set_during.py: SetDuring.step"]}
{"id": "C47", "title": "filter_with_mask and map_consecutive_fn", "statement": "filter_with_mask(mask, values) returns the values whose mask is true, in order; map_consecutive_fn(f, v) returns f(v[i+1], v[i]) for every i.", "quantifier": "every mask and values of sufficient length", "why_tests_cant": "write-once arrays indexed by a running count, for all masks", "anchors": ["tensorstream/common/__init__.py: filter_with_mask", "tensorstream/common/__init__.py: map_consecutive_fn"]}
{"id": "C48", "title": "Outputs and states keep one nested structure", "statement": "The nested structure of the outputs and of the states of an operator (single or composed with Compose, Join, Map and FFill) is determined by its class and the structure of its inputs alone: every call, streamed or not, whatever the values, gives an output series, a final state and an initial state of that structure, so that a saved state can be given back to any later call.", "quantifier": "every operator of the library and every composition, every input structure and value, every history", "why_tests_cant": "all nestings and values; examples show one structure at a time", "anchors": ["tensorstream/streamable.py: Streamable.__call__", "tensorstream/meta/", "tensorstream/common/", "tensorstream/finance/"]}
{"id": "C49", "title": "No failure on inputs of the right shapes and dtypes", "statement": "The shapes and dtypes of the outputs and of the states of an operator (single or composed with Compose, Join, Map and FFill) follow from its class and the shapes and dtypes of its inputs; and on any inputs of these shapes, from no state or from any state of its shapes, a single step and a streamed call of any length succeed with outputs and states of the predicted shapes. No hypothesis on success is needed: streaming is stepping, chunks can be split anywhere, outputs are causal.", "quantifier": "every operator of the library except Supertrend (which can abort, C30) and every composition, every shape, every value, every history", "why_tests_cant": "all values including NaN and infinities, all shapes and nestings", "anchors": ["tensorstream/streamable.py: Streamable.__call__", "tensorstream/meta/", "tensorstream/common/", "tensorstream/finance/"]}
{"id": "C50", "title": "The initial state depends only on shapes and dtypes", "statement": "Called without a state, an operator starts from an initial state that depends only on the shapes and dtypes of its inputs, not on their values nor on the length of the series: any two series of the same element shapes report the same initial state, and the initial state of one can be given as the state of the other without changing the result.", "quantifier": "every operator of the library except Supertrend and every composition, every pair of series", "why_tests_cant": "all pairs of inputs; a test sees one initial state", "anchors": ["tensorstream/streamable.py: Streamable.__call__", "tensorstream/meta/", "tensorstream/common/", "tensorstream/finance/"]}
{"id": "C51", "title": "Windowed operators forget", "statement": "From its k-th element on, the outputs of a windowed operator over a series do not depend on what came before the series, where k is the length of its window: p for moving averages, deviations, bands, local extrema, Sharpe ratio and skewness; p + 1 for delays, momentum, returns and correlations; the sum of lag and period plus one for cross- and auto-correlation; 2 for Heikin-Ashi candles. The exponential and rolling averages forget geometrically: after n + 1 common elements the difference of two averages is ((p-1)/(p+1))^(n+1), resp. ((p-1)/p)^(n+1), times the difference before.", "quantifier": "every pair of histories of any lengths followed by the same series, every shape and period", "why_tests_cant": "all pairs of pasts of unbounded length", "anchors": ["tensorstream/finance/moving_average.py", "tensorstream/common/correlation.py", "tensorstream/common/extremum.py", "tensorstream/finance/heikin_ashi.py", "tensorstream/common/lag.py"]}
{"id": "C52", "title": "Averages are linear", "statement": "In exact arithmetic the simple, exponential and rolling averages, delays, momentum, the crossover difference and the five outputs of MACD are linear: streaming a x + b y gives a times the outputs over x plus b times the outputs over y, at every position; and adding a constant to a series adds it to the averages from the first full window on.", "quantifier": "every pair of series of the same length and shape, all coefficients", "why_tests_cant": "all real combinations and all series", "anchors": ["tensorstream/finance/moving_average.py", "tensorstream/finance/moving_average_convergence_divergence.py", "tensorstream/finance/momentum.py", "tensorstream/finance/moving_average_crossover.py", "tensorstream/common/lag.py"]}
{"id": "C53", "title": "Independence of units", "statement": "In exact arithmetic: multiplying prices by a nonzero number changes no return, logarithmic return or volatility; a positive change of scale and a change of origin change neither RSI nor skewness nor the Sharpe ratio (applied to both inputs), nor the correlations when both scales have the same sign; local and global extrema, average true range, deviation, Bollinger bands, Heikin-Ashi candles and Supertrend are themselves expressed in the new units, Supertrend aborting on the same bars whatever the unit; with fast <= slow the crossover of two averages and the MACD, its signal and histogram follow the scale and ignore the origin, and the trading signals derived from them change with neither. Drawdown depths do not depend on the unit once the first price is at least 0.0001 in both units, and its counts do not when different prices are more than 0.0001 apart in both; below that tolerance they do.", "quantifier": "every series, every scale and origin", "why_tests_cant": "all series and all changes of units", "anchors": ["tensorstream/finance/returns.py", "tensorstream/finance/relative_strength_index.py", "tensorstream/common/correlation.py", "tensorstream/finance/average_true_range.py", "tensorstream/finance/heikin_ashi.py", "tensorstream/finance/supertrend.py", "tensorstream/finance/drawdown.py", "tensorstream/finance/signals/moving_average_crossover_signal.py"]}
{"id": "C54", "title": "Laws of Compose, Join, Map and FFill", "statement": "Operators giving the same outputs can be exchanged inside Compose, Join, Map and FFill. A pipeline of one operator is that operator; nested pipelines can be flattened; Identity before or after an operator changes nothing; two delays make one delay of the sum of the periods. A Join of pipelines is a pipeline of Joins; selecting one output of a Join, or of operators fed from one Fork, runs that operator alone. Map distributes over Compose and Join. Operators working element by element (averages, delays, deviations, bands, MACD, crossovers, signals, correlations, and pipelines of such operators) give on n columns at once what Map gives. FFill changes nothing when no row is missing; but FFill on n columns at once differs from Map of FFill, since a row counts as missing as soon as one column is.", "quantifier": "every operator of the library except Supertrend and every composition, every shape, every value, every series length", "why_tests_cant": "equalities of programs over all compositions, shapes and series", "anchors": ["tensorstream/meta/compose.py", "tensorstream/meta/join.py", "tensorstream/meta/map.py", "tensorstream/meta/ffill.py", "tensorstream/common/common.py"]}
{"id": "C55", "title": "Rounding errors do not build up", "statement": "In float32, however long the series, the outputs of the simple, exponential and rolling averages, of momentum, of the crossover difference and of MACD are finite and stay within a fixed distance of what exact arithmetic gives on the same inputs: for inputs of absolute value at most M, a small multiple of the period times 2^-24 M (plus 2^-150), the multiple depending on the operator and not on the number of elements seen; in particular the recursive averages, which feed each rounded output into the next step, never drift.", "quantifier": "every finite float32 series of any length and shape bounded by M <= 2^90, every period up to 2^20", "why_tests_cant": "the error after any number of steps; a test sees the error of one series", "anchors": ["tensorstream/finance/moving_average.py", "tensorstream/finance/momentum.py", "tensorstream/finance/moving_average_crossover.py", "tensorstream/finance/moving_average_convergence_divergence.py"]}
{"id": "C56", "title": "Signs and bounds survive rounding", "statement": "In float32: averages of numbers that are not negative are not negative; a standard deviation is never negative; the lower Bollinger band is never above the middle one nor the middle one above the upper one (for a width that is not negative); RSI is NaN or between 0 and 100; the average true range of finite prices is never negative; a drawdown is never positive, nor NaN, nor below -1 when no input is negative; a Heikin-Ashi candle (after a nonzero open) contains its open and close and the range it comes from. What does not survive: the averages of a constant float32 series can lie below or above it, its deviation can be 1, and the correlation of a series with itself can exceed 1.", "quantifier": "every float32 series of any length (NaN and infinities included, except for the average true range), every period", "why_tests_cant": "all float32 inputs, with rounding, overflow and signed zeros", "anchors": ["tensorstream/finance/moving_average.py", "tensorstream/finance/bollinger_bands.py", "tensorstream/finance/relative_strength_index.py", "tensorstream/finance/average_true_range.py", "tensorstream/finance/drawdown.py", "tensorstream/finance/heikin_ashi.py", "tensorstream/common/correlation.py"]}
{"id": "C57", "title": "Averages are monotone in float32", "statement": "If a series is nowhere above another series of the same length, its simple, exponential and rolling averages, computed in float32, are nowhere above those of the other: rounding and overflow never invert the order of two averages, and finite inputs never give NaN.", "quantifier": "every pair of finite float32 series of the same length and shape, every period up to 2^20", "why_tests_cant": "all pairs of float32 series of any length, including those that overflow", "anchors": ["tensorstream/finance/moving_average.py"]}
{"id": "C58", "title": "Recovery from any crash", "statement": "A series can be streamed in any number of pieces of any lengths, each call given the state returned by the one before it; a process that does so may save its state and outputs at any times, crash at any times and restart from what it saved last: no call fails that would not fail on the whole series, its outputs are always the first outputs of the single call over the whole series, and once it reaches the end it has all of them and the same final state.", "quantifier": "every operator of the library and nesting of operators, every series, every division into pieces, every interleaving of streaming, saving and crashing", "why_tests_cant": "all schedules and crash points", "anchors": ["tensorstream/streamable.py: call_streamed", "tensorstream/streamable.py: __call__"]}
{"id": "C59", "title": "Several assets in one tensor", "statement": "AverageTrueRange over prices of any shape emits one number per step, the rolling average of the largest true range over all the elements, and so never what Map over the columns emits. The operators that take a decision on the value of their input (global and local extrema, Return, LogarithmicReturn, Volatility, Drawdown, Skewness, SharpeRatio, HeikinAshi) reject tensors of rank 1 or more at the first element, instead of computing something else; they need Map.", "quantifier": "every shape, every period, every series of any length", "why_tests_cant": "all shapes and all series", "anchors": ["tensorstream/finance/average_true_range.py", "tensorstream/common/extremum.py", "tensorstream/finance/returns.py", "tensorstream/finance/drawdown.py", "tensorstream/finance/skewness.py", "tensorstream/finance/sharpe_ratio.py", "tensorstream/finance/heikin_ashi.py", "tensorstream/finance/volatility.py"]}
{"id": "C60", "title": "Distance from exact results", "statement": "In float32, however long the series, the standard deviation, the Bollinger bands, returns, logarithmic returns, volatility, the average true range, Heikin-Ashi candles and drawdowns are finite and stay within a stated distance of what exact arithmetic gives on the same inputs: proportional to 2^-24 times the largest input (times the period for windowed results; times the ratio of the largest to the smallest price for returns), and 2^-22 for a drawdown whatever the size of the values; for logarithmic returns and volatility on top of the error of the logarithm used. The relative strength index stays within 600 * 2^-24 plus 200 times the rounding error of the averages divided by the recent average absolute move, wherever that move is at least four times this error.", "quantifier": "every finite float32 series of any length within the stated magnitudes, every period up to 2^20, every logarithm of a given accuracy", "why_tests_cant": "the error on every series of any length; a test sees the error of one series", "anchors": ["tensorstream/finance/moving_standard_deviation.py", "tensorstream/finance/bollinger_bands.py", "tensorstream/finance/returns.py", "tensorstream/finance/volatility.py", "tensorstream/finance/average_true_range.py", "tensorstream/finance/heikin_ashi.py", "tensorstream/finance/drawdown.py", "tensorstream/finance/relative_strength_index.py"]}
{"id": "C61", "title": "Tables regrouped by field", "statement": "transpose(tables), given one table per product, returns one table per field of the first product, in its order: column i is product i's series of that field, the rows are the rows of any product, and a cell is the product's own cell or NaN where the product has no such row. Products with the same rows keep them in order, even when a row label is repeated; otherwise the rows are increasing, and a product with a repeated row label is an error next to one that has a row it lacks. A product that lacks a field of the first product is a KeyError, an empty list an IndexError.", "quantifier": "every list of tables with distinct column names, and distinct row labels where not said otherwise", "why_tests_cant": "every number of products, every set of columns and every combination of row labels, overlapping or not", "anchors": ["tensorstream/common/__init__.py:transpose"]}
{"id": "C62", "title": "Changes compound", "statement": "In exact arithmetic, on prices different from 0, 1 + Return(p) at any position from p on is the product of 1 + Return(1) over the last p positions, and the price at any position is the first price times the product of all 1 + Return(1) up to it. On positive prices LogarithmicReturn(p) is the sum of the last p LogarithmicReturn(1), and 1 + Return(p) = exp(LogarithmicReturn(p)) everywhere. Momentum(p) is the sum of the last p Momentum(1). In float32 the last does not hold exactly.", "quantifier": "every series of real prices (no zero; positive for logarithms), every period, every position", "why_tests_cant": "every series and every period; a test compares a few products", "anchors": ["tensorstream/finance/returns.py", "tensorstream/finance/momentum.py"]}
{"id": "C63", "title": "Mirror images", "statement": "In exact arithmetic, mirroring the input (x becomes c - x) mirrors what an operator says: GlobalMinimum and LocalMinimum give the mirror image of GlobalMaximum and LocalMaximum and conversely; RelativeStrengthIndex(p) gives 100 minus its value from position p on; Skewness and SharpeRatio (returns and rates mirrored alike) change sign; Correlation and CrossCorrelation change sign when one of the two series is mirrored, and Correlation does not depend on the order of the series; with negated prices the Bollinger bands are negated and exchanged, Heikin-Ashi candles are mirrored (high and low exchanged) and AverageTrueRange is unchanged; Supertrend aborts on both or neither, and its line is negated provided no close is 0 (a close of 0 starts an up trend on both sides). ZeroCrossoverSignal changes sign, in float32 too, unless the series starts with 0: leading zeros count as positive.", "quantifier": "every series of real numbers, pairs or candles of any length, every period and lag, every centre of the mirror; any float32 series without NaN for zero crossings", "why_tests_cant": "a relation between the outputs on every series and on its mirror image", "anchors": ["tensorstream/common/extremum.py", "tensorstream/finance/relative_strength_index.py", "tensorstream/finance/skewness.py", "tensorstream/finance/sharpe_ratio.py", "tensorstream/common/correlation.py", "tensorstream/finance/bollinger_bands.py", "tensorstream/finance/average_true_range.py", "tensorstream/finance/supertrend.py", "tensorstream/finance/heikin_ashi.py", "tensorstream/finance/signals/zero_crossover_signal.py"]}
{"id": "C64", "title": "Every call ends after one iteration per row", "statement": "A streamed call, Map, filter_with_mask and the drawdown summaries loop at most once per row of their inputs: they end with a result or with an error the program raises, whatever the inputs (also malformed ones), the state and the operator; allowing more iterations than rows changes nothing.", "quantifier": "every operator of the library, nested in any way, with any user functions that end themselves; every input, state and call mode", "why_tests_cant": "termination of a loop for every input, including the inputs on which it fails", "anchors": ["tensorstream/streamable.py: call_streamed", "tensorstream/meta/map.py: Map", "tensorstream/common/__init__.py: filter_with_mask", "tensorstream/finance/drawdown.py: details"]}
{"id": "C65", "title": "Missing numbers", "statement": "A NaN in the input reaches these outputs, number by number: SimpleMovingAverage, MovingStandardDeviation, BollingerBands, Skewness, SharpeRatio and Correlation are NaN as long as one is in their window; Momentum and Return where one of the two numbers they compare is (a return from 0 stays 0). ExponentialMovingAverage, RollingMovingAverage and the MACD lines never recover: from then on every output is NaN. GlobalMinimum and GlobalMaximum skip NaN, except that a NaN at the first position is kept for ever. ZeroCrossoverSignal treats NaN as 0; SimpleMovingAverageCrossoverSignal gives 0 while one is in the longer window, and MovingAverageConvergenceDivergenceSignal gives 0 for ever after.", "quantifier": "every series of any length and shape, in float32 and in exact arithmetic, with NaN at any positions; every period", "why_tests_cant": "every position of a NaN and every later position, for ever", "anchors": ["tensorstream/finance/moving_average.py", "tensorstream/finance/moving_standard_deviation.py", "tensorstream/finance/bollinger_bands.py", "tensorstream/finance/moving_average_convergence_divergence.py", "tensorstream/finance/momentum.py", "tensorstream/finance/returns.py", "tensorstream/finance/skewness.py", "tensorstream/finance/sharpe_ratio.py", "tensorstream/common/correlation.py", "tensorstream/common/extremum.py", "tensorstream/finance/signals"]}
{"id": "C66", "title": "Supertrend is a trailing stop", "statement": "Supertrend reports no trend exactly where the average true range is 0. An up trend turns down exactly at a close below the line emitted at the bar before, a down trend turns up exactly at a close above it, and a trend that starts is up unless the close is negative. While an up trend lasts with the close above the line, the line never falls; while a down trend lasts with the close below it, it never rises. It cannot abort on a series in which the middle of every bar is within factor times the average true range of the close before it; in exact arithmetic a factor at least as large as the period is therefore safe on every series of prices different from 0, and for every smaller positive factor (such as the usual period 10 and factor 3) there are well-formed prices on which it aborts.", "quantifier": "every series of bars of any length, every period and factor, float32 and exact arithmetic", "why_tests_cant": "every bar of every series: the line depends on the whole history", "anchors": ["tensorstream/finance/supertrend.py"]}
{"id": "C67", "title": "Small errors stay small", "statement": "In exact arithmetic, two input series whose numbers are nowhere more than e apart give outputs nowhere more than K e apart, whatever the length of the series and the periods: K is 1 for SimpleMovingAverage, ExponentialMovingAverage, RollingMovingAverage, MovingStandardDeviation and the local and global extrema, 2 for Momentum, SimpleMovingAverageCrossover and AverageTrueRange (closes not 0), (1, 1, 2, 2, 4) for the outputs of MovingAverageConvergenceDivergence, (1+|k|, 1, 1+|k|) for BollingerBands of factor k, 1 for the four prices of HeikinAshi (opens not 0). For prices of at least lo, K is 2/lo for LogarithmicReturn, Volatility and the depth of Drawdown, and (1+hi/lo)/lo for Return with prices up to hi; without lo no factor works for Return. RelativeStrengthIndex moves by at most 400 e / a where the average absolute step a is at least 8 e. A pipeline multiplies the factors of its operators.", "quantifier": "every pair of series of any length and shape, every error e, every period and factor, every pipeline of operators with a factor", "why_tests_cant": "a bound on all pairs of inputs at once; errors could add up over an arbitrarily long history", "anchors": ["tensorstream/finance/moving_average.py", "tensorstream/finance/moving_standard_deviation.py", "tensorstream/finance/momentum.py", "tensorstream/finance/moving_average_crossover.py", "tensorstream/finance/moving_average_convergence_divergence.py", "tensorstream/finance/bollinger_bands.py", "tensorstream/common/extremum.py", "tensorstream/finance/returns.py", "tensorstream/finance/volatility.py", "tensorstream/finance/drawdown.py", "tensorstream/finance/average_true_range.py", "tensorstream/finance/heikin_ashi.py", "tensorstream/finance/relative_strength_index.py", "tensorstream/meta/compose.py: Compose"]}
{"id": "C68", "title": "The indicators of one series agree", "statement": "In exact arithmetic, on one series of numbers: GlobalMinimum <= LocalMinimum <= the number <= LocalMaximum <= GlobalMaximum at every position, a SimpleMovingAverage lies between the extrema of its window and the other averages between the global extrema, longer windows have lower minima and higher maxima, and the global extrema only move outwards. A SimpleMovingAverage of period p moves by Momentum(p) / p at each step, and |Momentum(p)| is at most LocalMaximum(p+1) - LocalMinimum(p+1). MovingStandardDeviation is at most half of LocalMaximum - LocalMinimum, and average\u00b2 + deviation\u00b2 is the SimpleMovingAverage of the squares. BollingerBands of factor k are the SimpleMovingAverage and k MovingStandardDeviations on both sides; at most a part 1/k\u00b2 of the window lies outside them; nothing can leave bands with p - 1 <= k\u00b2 (p <= 5 for the usual factor 2), and for every smaller factor a number above its band exists. RelativeStrengthIndex is 50 (1 + a/b), a and b being the RollingMovingAverages of the steps of the series and of their absolute values. The depth of a Drawdown is number / GlobalMaximum - 1 (first number at least 0.0001). RollingMovingAverage(p) and ExponentialMovingAverage(2p-1) approach each other by the factor (p-1)/p at each step. AverageTrueRange is at least the RollingMovingAverage of high - low.", "quantifier": "every series of real numbers or candles of any length below 2^31, every period and factor, every position", "why_tests_cant": "relations between the outputs of different operators at every position of every series", "anchors": ["tensorstream/common/extremum.py", "tensorstream/finance/moving_average.py", "tensorstream/finance/moving_standard_deviation.py", "tensorstream/finance/momentum.py", "tensorstream/finance/bollinger_bands.py", "tensorstream/finance/relative_strength_index.py", "tensorstream/finance/drawdown.py", "tensorstream/finance/average_true_range.py"]}
{"id": "C69", "title": "Prices in ticks are exact in float32", "statement": "If all prices are whole multiples of a power of two (the tick), float32 loses nothing that exact arithmetic keeps, in whatever order the library adds up a window: a sum of at most 2^24 ticks in all is exact in every order (larger sums may depend on the order). Momentum is the exact difference for prices up to 2^23 ticks. SimpleMovingAverage(p) of prices up to 2^24/p ticks is the exact mean rounded once: no float32 is closer to it, and it is the mean itself where that is a float32. SimpleMovingAverageCrossover is never on the wrong side of zero. HeikinAshi candles of prices up to 2^22 ticks are exact. The sign of Momentum is right for all finite float32 numbers up to 2^126, in ticks or not.", "quantifier": "every series of any length and shape of multiples of any tick within the stated sizes, every period, every order of summation", "why_tests_cant": "all orders in which a reduction may add, all series; a test sees the order of one machine", "anchors": ["tensorstream/finance/moving_average.py: SimpleMovingAverage", "tensorstream/finance/momentum.py", "tensorstream/finance/moving_average_crossover.py", "tensorstream/finance/heikin_ashi.py"]}
{"id": "C70", "title": "Whole-number series are computed exactly or rejected", "statement": "Given series of int32 whole numbers, an operator either computes exactly on them or fails at the first element; it never computes something else in silence. GlobalMinimum and GlobalMaximum give the least and the greatest of all numbers so far, LocalMinimum(p) and LocalMaximum(p) those of the last p (or of those there are), for every int32 including the smallest and the largest. Add, Sub and Mul are exact where the result is an int32 and otherwise wrap around by a multiple of 2^32. All moving averages, the standard deviation, Bollinger bands, returns, momentum, MACD, RSI, crossover signals, volatility, skewness, Sharpe ratio, correlations, ATR, Supertrend, Heikin-Ashi, drawdown, the risk ratio evaluator and FFill reject every series that is not float32, also if it is only one of several. Booleans are rejected by arithmetic, signs and extrema, and numbers of different dtypes are not added up.", "quantifier": "every int32 series of any length (up to 2^31 elements for the moving extrema), every shape, every period and constructor argument, and for the rejections every dtype other than float32 and every series of at least one element", "why_tests_cant": "all dtypes, shapes and periods of all operators, and all whole numbers", "anchors": ["tensorstream/common/extremum.py", "tensorstream/common/common.py: Sub, Add, Mul, Positive, Negative", "tensorstream/finance/", "tensorstream/common/correlation.py", "tensorstream/meta/ffill.py"]}
{"id": "C71", "title": "Periods below one are rejected, except by two averages", "statement": "A negative period makes every windowed operator (moving averages, standard deviation, skewness, Bollinger bands, moving extrema, crossovers, MACD and its signal, volatility, correlations, Sharpe ratio, ATR, Supertrend, the risk ratio evaluator) fail at the first element, alone or streamed, if it is any one of the periods. So does a lag of 0 or less (Lag, Return, LogarithmicReturn, Momentum, RSI, the lag of Volatility, AutoCorrelation and CrossCorrelation). A window of 0 elements cannot be streamed: simple moving average, standard deviation, skewness, extrema, Bollinger bands, crossovers, volatility, Correlation, Sharpe ratio and the risk ratio evaluator fail on every series. Two averages break the rule in silence: ExponentialMovingAverage(0) streams 2x - last, which on a series that never changes is twice its value and 0 in turn, and RollingMovingAverage(0) divides by 0 at every element, so that none of its outputs is a number; nor is any output of AverageTrueRange(0), which does the same to the true ranges.", "quantifier": "every period below one, every other constructor argument, every shape and dtype and every series of at least one element; for the two averages and the true range every float series of up to 2^31 elements", "why_tests_cant": "all periods, operators, shapes and series; the constructors check nothing", "anchors": ["tensorstream/finance/", "tensorstream/common/lag.py", "tensorstream/common/extremum.py", "tensorstream/common/correlation.py", "tensorstream/streamable.py: Streamable.__call__"]}
{"id": "C72", "title": "roll and shift keep the latest values, newest first", "statement": "roll(value, window) puts the value in row 0, moves every row back by one and drops the last, for windows of one or more rows of any shape and dtype; after any number of values the window holds the latest ones, newest first, followed by what it held before. A window of no rows does not stay one: it grows to one row. A value whose shape or dtype is not that of the rows is refused, and so is a scalar window. shift does the same on vectors and refuses everything else. any_value and any_nan refuse every structure with a tensor that is not float32.", "quantifier": "every shape, dtype, window length, value and number of values; every nested structure for any_value and any_nan", "why_tests_cant": "all shapes, dtypes and numbers of values", "anchors": ["tensorstream/common/__init__.py: roll, shift", "tensorstream/helpers/any_value.py: any_value", "tensorstream/helpers/any_nan.py: any_nan"]}
{"id": "C73", "title": "Users of one operator do not see each other", "statement": "Any number of users may stream series of their own through one operator object, or several, in any interleaving: each keeps the state returned to them and passes it to their next call. The progress of a user (outputs and state) is determined by their own calls, saves and crashes: not by who else uses the operator, with which series, when, and whether those calls fail. Whatever the schedule, the outputs a user has are the first outputs of their single call over their whole series, and all of them with its final state once they have streamed what was left.", "quantifier": "every operator of the library and nesting of operators, any number of users, every series of each of them, every interleaving of their calls, saves, crashes and failing calls", "why_tests_cant": "all interleavings of any number of users", "anchors": ["tensorstream/streamable.py: Streamable.__call__, call_streamed", "tensorstream/meta/", "tensorstream/common/", "tensorstream/finance/"]}
{"id": "C74", "title": "Readings on straight lines and geometric series", "statement": "In exact arithmetic, on numbers that rise (or fall) by the same step: from position p - 1 on, the simple and the exponential average are both the line (p - 1) / 2 steps ago, and the rolling average goes from there to the line p - 1 steps ago, its remaining distance shrinking by (p - 1) / p per step; the deviation is |step| sqrt ((p^2 - 1) / 12) and the Bollinger bands lie k deviations around the line (p - 1) / 2 steps ago; the momentum is p steps; the MACD (with fast at most slow) is (slow - fast) / 2 steps, its signal the same and its histogram 0; the relative strength index is 100 on a rising, 0 on a falling and NaN on a flat line; the skewness is 0 at every position; two lines have correlation 1 or -1 according to their directions, and NaN if one is flat or p = 1. On numbers multiplied by q at every step, the return is q^p - 1 and the logarithmic return p ln q, and while they shrink the drawdown after n steps is q^n - 1 with n steps counted.", "quantifier": "every start, step, factor, length below 2^31, period, and position after the warm-up", "why_tests_cant": "all lines, periods and positions: a test fixes a few; the closed forms fix the lag of every average", "anchors": ["tensorstream/finance/moving_average.py", "tensorstream/finance/bollinger_bands.py", "tensorstream/finance/moving_average_convergence_divergence.py", "tensorstream/finance/momentum.py", "tensorstream/finance/relative_strength_index.py", "tensorstream/finance/drawdown.py", "tensorstream/finance/returns.py", "tensorstream/finance/moving_standard_deviation.py", "tensorstream/finance/skewness.py", "tensorstream/common/correlation.py"]}
{"id": "C75", "title": "Infinities and overflow", "statement": "In float32 as in exact arithmetic: the simple average, the deviation, the Bollinger bands, the skewness, the Sharpe ratio and the correlation give no number (an infinity or NaN) as long as one of the inputs in the window is an infinity or NaN; the momentum does where one of the two numbers it compares is, the return where the later one is; the exponential and rolling averages and the MACD outputs never give a number again once such an input has gone in, and the two averages never again once they have given none themselves. The expectation that finite inputs give finite outputs is refuted in float32: the greatest number twice has an infinite average over 2, and an exponential or rolling average over 2 that starts so never gives a number again, whatever follows.", "quantifier": "every arithmetic with the listed laws (proved for float32 and for exact arithmetic), shape, period, series, position of the infinity, and continuation after an overflow", "why_tests_cant": "all inputs and continuations: no test can show that an average never recovers", "anchors": ["tensorstream/finance/moving_average.py", "tensorstream/finance/bollinger_bands.py", "tensorstream/finance/moving_average_convergence_divergence.py", "tensorstream/finance/momentum.py", "tensorstream/finance/returns.py", "tensorstream/finance/moving_standard_deviation.py", "tensorstream/finance/skewness.py", "tensorstream/finance/sharpe_ratio.py", "tensorstream/common/correlation.py"]}
{"id": "C76", "title": "Periods in the wrong order", "statement": "SimpleMovingAverageCrossover and MovingAverageConvergenceDivergence take the period of the slow average first. Given the shorter period first they raise no error. In exact arithmetic, once both averages exist their line is the line of the right order with the sign changed, but before that, from the end of the shorter period on, it is minus the shorter average, that is minus the level of the series. So the first value of the crossover signal on positive prices that can differ from 0 says that the longer average starts above the shorter one, not that they cross: on every falling line of positive prices, where the averages never cross, the right order gives no signal and the wrong one a 1. The signal line and the histogram of the MACD never forget the level: on a series that never changes they are never 0 again, only smaller by (m - 1) / (m + 1) at every step (right order: 0).", "quantifier": "every pair of periods in the wrong order, signal period, series of fewer than 2^31 real numbers (positive for the signal) and position", "why_tests_cant": "all periods, series and positions: tests pass the periods in the right order", "anchors": ["tensorstream/finance/moving_average_crossover.py", "tensorstream/finance/moving_average_convergence_divergence.py", "tensorstream/finance/signals/moving_average_crossover_signal.py", "tensorstream/finance/signals/zero_crossover_signal.py", "tensorstream/common/set_during.py"]}
{"id": "C77", "title": "The order of averages, changes and delays does not matter", "statement": "In exact arithmetic a Compose of SimpleMovingAverage, Momentum, Lag and SimpleMovingAverageCrossover stages, any number of them with any periods, gives the same numbers in every order of the stages from the position on at which each has seen enough: the sum of p - 1 for an average over p, p for a momentum or a lag of p, and the longer period less 1 for a crossover. Before that position the order does matter (the zeros of the warm-up enter as if they were data: the momentum of an average jumps when the average appears), and with an ExponentialMovingAverage it matters for ever.", "quantifier": "every list of stages and every permutation of it, every series of tensors of any shape and fewer than 2^31 rows, every position from the warm-up on", "why_tests_cant": "all pipelines, orders and series; a test compares two orders of one pipeline on one series", "anchors": ["tensorstream/meta/compose.py", "tensorstream/finance/moving_average.py", "tensorstream/finance/momentum.py", "tensorstream/common/lag.py", "tensorstream/finance/moving_average_crossover.py"]}
{"id": "C78", "title": "What the indicators say once the prices stop moving", "statement": "In exact arithmetic, on a series that stays at one number c from position n on (after any history): the exponential and the rolling average approach c, their distance shrinking by (p-1)/(p+1), resp. (p-1)/p, at every step; after p numbers the simple average, the local extrema and the three Bollinger bands are c and the deviation is 0; after p steps momentum and returns are 0 (at c = 0 too) and after p + q - 1 steps the volatility of q returns; the MACD is the difference of the two fading distances; the relative strength index keeps its last value for ever (period 1: it becomes NaN); the drawdown keeps its depth and goes on counting (at a peak too: depth 0, duration growing); the skewness is 0 once its window holds only c, the Sharpe ratio is 0 once the excess returns in its window are equal (whatever they are), and a correlation is NaN at every element where one of its two windows has stopped. On bars that stay at one price the average true range shrinks by (p-1)/p at every step, and Supertrend (period at least 2, factor not negative, range not 0 at bar n) never turns again, its line staying on its side of the price, at most factor average true ranges away.", "quantifier": "every history of any length before the stop, every number of steps after it, every period and factor", "why_tests_cant": "all histories and all later positions; a test looks at a few steps after one history", "anchors": ["tensorstream/finance/moving_average.py", "tensorstream/finance/relative_strength_index.py", "tensorstream/finance/drawdown.py", "tensorstream/finance/average_true_range.py", "tensorstream/finance/supertrend.py", "tensorstream/finance/returns.py", "tensorstream/finance/moving_average_convergence_divergence.py", "tensorstream/finance/volatility.py", "tensorstream/finance/bollinger_bands.py"]}
{"id": "C79", "title": "An operator that cannot answer stops the whole call", "statement": "Errors are never swallowed. The base class, which defines no step, raises on every call. A streamed call raises when the first element raises, and when any later element raises from the state left by the elements before it. A composition raises, with the error of the stage, when one stage raises on what the stages before it hand over; Compose (with no state, or one state per operator), Join (when it has an input for it), Map and FFill (on missing data too) never answer around an operator that never answers. The one way round it: given fewer states than operators, Compose silently leaves out the operators without a state, even one that can only raise.", "quantifier": "every operator, every series and position, every nesting, every state", "why_tests_cant": "every position of every series and every place in a composition; a test raises in one place", "anchors": ["tensorstream/streamable.py: Streamable.step", "tensorstream/streamable.py: Streamable.call_streamed", "tensorstream/meta/compose.py: Compose.step", "tensorstream/meta/join.py: Join.step", "tensorstream/meta/map.py: Map.step", "tensorstream/meta/ffill.py: FFill.step"]}
{"id": "C80", "title": "What the indicators say while the prices only rise", "statement": "In exact arithmetic, on a series in which no number is below the one before it: simple, exponential and rolling averages, once they exist, are never above the number and never fall; of two averages of the same kind the one with the longer period is never above the other, and the rolling average is never above the exponential one of the same period. The crossover of simple averages (right order) is never negative and its signal stays 0; the MACD and its signal line are never negative. Global and local maximum are the number itself, the global minimum is the first number, the local minimum the oldest number of the window; momentum is never negative; the drawdown is 0. The relative strength index (period at least 2) is 100 once the series has risen at all, and not a number before.", "quantifier": "every non-decreasing series, every position, every pair of periods", "why_tests_cant": "all rising series; a test looks at one", "anchors": ["tensorstream/finance/moving_average.py", "tensorstream/finance/moving_average_convergence_divergence.py", "tensorstream/finance/moving_average_crossover.py", "tensorstream/finance/momentum.py", "tensorstream/finance/relative_strength_index.py", "tensorstream/finance/drawdown.py", "tensorstream/common/extremum.py"]}
{"id": "C81", "title": "What Compose and Join do with the wrong number of states", "statement": "Given fewer states than operators, Compose and Join raise nothing: as many operators run as there are states, the innermost ones of a composition and the first ones of a Join, and the call, streamed or not, is exactly the call of that shorter composition or Join. Given more states than operators, a single call ignores the ones in excess and returns only as many new states as there are operators, while a streamed call always raises, whatever the length of the series; a streamed Join also raises when it is given more states than inputs. So a state saved from a composition that was since extended is silently accepted.", "quantifier": "every list of operators, every list of states, every input, streamed or not", "why_tests_cant": "every pair of a number of operators and a number of states, and every operator; a test tries one mismatch", "anchors": ["tensorstream/meta/compose.py: Compose.step", "tensorstream/meta/join.py: Join.step", "tensorstream/streamable.py: Streamable.call_streamed"]}
{"id": "C82", "title": "What the indicators say while the prices only fall", "statement": "In exact arithmetic, on a series in which no number is above the one before it: simple, exponential and rolling averages, once they exist, are never below the number and never rise; of two averages of the same kind the one with the longer period is never below the other, and the rolling average is never below the exponential one of the same period. The crossover of simple averages (right order), the MACD and its signal line are never positive. The crossover signal says sell at most once: at the position, after the warm-up, at which the line leaves 0 for the first time; on the mirrored, rising series it says nothing there, so signals are not mirrored. Global and local minimum are the number itself, the global maximum is the first number, the local maximum the oldest number of the window; momentum is never positive; from a first number above 0.0001 the drawdown is the part lost since the first number, and the count of positions under water is the position. The relative strength index (period at least 2) is 0 once the series has fallen at all, and not a number before.", "quantifier": "every non-increasing series, every position, every pair of periods", "why_tests_cant": "all falling series; a test looks at one", "anchors": ["tensorstream/finance/moving_average.py", "tensorstream/finance/moving_average_convergence_divergence.py", "tensorstream/finance/moving_average_crossover.py", "tensorstream/finance/signals/zero_crossover_signal.py", "tensorstream/finance/momentum.py", "tensorstream/finance/relative_strength_index.py", "tensorstream/finance/drawdown.py", "tensorstream/common/extremum.py"]}
{"id": "C83", "title": "A bounded past is forgotten in bounded time, or never", "statement": "In exact arithmetic, for every bound M and every tolerance there is a number K, depending on nothing else but the periods, such that after any two pasts (of any lengths, also none) with numbers within M, once the same K numbers have followed, the outputs differ by at most the tolerance from then on: this holds for the exponential and the rolling average (p numbers after the fork the difference is at most 2M, and from then on it shrinks at least as fast as exp(-2n/(p+1)), resp. exp(-n/p)), for all five outputs of the MACD with any periods (signal line and histogram included), and for the average true range of bars. It does not hold for the relative strength index: however long two series within 2 have been the same, one may read 100 and the other 0; nor for Supertrend, whose line may be below 0 for one and above 8 for the other; nor for the drawdown and the extrema since the start, which remember by design.", "quantifier": "every two pasts within a bound, every common continuation, every tolerance, all periods", "why_tests_cant": "the settling time has to work for all pasts at once; a test compares two", "anchors": ["tensorstream/finance/moving_average.py", "tensorstream/finance/moving_average_convergence_divergence.py", "tensorstream/finance/average_true_range.py", "tensorstream/finance/supertrend.py", "tensorstream/finance/relative_strength_index.py", "tensorstream/finance/drawdown.py", "tensorstream/common/extremum.py"]}
{"id": "C84", "title": "What one wrong number does", "statement": "In exact arithmetic, when one number of a series is off by e, the harm to every output is known exactly: the simple average of p is off by e / p while the wrong number is among the last p and right again after; the exponential average by 2 e / (p + 1) at first and by (p - 1) / (p + 1) of the previous error at each later step; the rolling average by e / p at first and (p - 1) / p of the previous error later; a wrong number among the first p does its harm, e / p for all three, from position p - 1; momentum is off by e at once and by - e exactly p positions later and nowhere else; the MACD line is off by the difference of the errors of its two averages; a number too high is the maximum so far until a higher one comes and the maximum of the last p while it is among them, a number too low likewise for the minima, and the extrema of the last p are right again p positions later; after a price too high every drawdown is measured from the false peak until a higher price comes. Outputs before the wrong number are untouched.", "quantifier": "every series, every position of the wrong number, every error, all periods, every later output", "why_tests_cant": "a test corrupts one number of one series and looks at a few outputs", "anchors": ["tensorstream/finance/moving_average.py", "tensorstream/finance/momentum.py", "tensorstream/finance/moving_average_convergence_divergence.py", "tensorstream/common/extremum.py", "tensorstream/finance/drawdown.py"]}
{"id": "C85", "title": "Extrema of extrema", "statement": "In exact arithmetic, a pipeline that takes the maximum of the last q outputs of the maximum of the last p numbers gives, at every position (the first ones included), the maximum of the last p + q - 1 numbers, and likewise for minima; a maximum since the start before or after any other maximum, local or global, is the maximum since the start; the minimum of the last p maxima and the maximum of the last p minima enclose the number p - 1 positions back.", "quantifier": "every series, all periods, every position", "why_tests_cant": "an off-by-one in a window shows only on series whose extremum sits at its edge", "anchors": ["tensorstream/common/extremum.py", "tensorstream/meta/compose.py"]}
