(** * Finance: tensorstream/finance/*.py *)
From Coq Require Import List ZArith Bool.
From Verif Require Import Num Py Tensor Streamable Meta Common.
Import ListNotations.

Section Finance.
Context {N : FOps}.

(** A result that is one tensor, as a branch of tf.cond. *)
Definition leaf (r : res tensor) : res val := let* t := r in Ok (Leaf t).
(** [t + z], [t - z], [t * z], [t / z], [t < z], [t == z] for a Python int [z]. *)
Definition int_op (op : tensor -> tensor -> res tensor) (t : tensor) (z : Z) : res tensor :=
  let* u := pyint_like t z in op t u.
(** tf.cond(p, ...) on tensors *)
Definition tcond (p : tensor) (a b : res tensor) : res tensor :=
  let* r := tf_cond p (leaf a) (leaf b) in as_t r.

(** ** moving_average.py *)
(** moving_average.py:11-22 *)
Definition sma_step (period : Z) (args : list val) : res out3 :=
  let* _ := arity 1 3 args in
  let* value := targ args 0 in
  let* iteration := targ_or args 1 (Ok (isc 0)) in
  let* prev_buffer := targ_or args 2 (zeros_buffer period value) in
  let* new_buffer := roll value prev_buffer in
  let* c := int_op tless iteration (period - 1) in
  let* new_value := tcond c
     (Ok (zeros_like value))
     (let* s := treduce_sum0 new_buffer in int_op tdiv s period) in
  let* it1 := int_op tadd iteration 1 in
  Ok (Leaf new_value, Tup [Leaf it1; Leaf new_buffer], Tup [Leaf iteration; Leaf prev_buffer]).
Definition SimpleMovingAverage (period : Z) : operator := Plain (sma_step period).

(** moving_average.py:28 [self.k = 2.0 / (period + 1.0)] in binary64 *)
Definition ema_k (period : Z) : D := ddiv (d_of_Z 2) (dadd (d_of_Z period) (d_of_Z 1)).
(** moving_average.py:32-57 *)
Definition ema_step (period : Z) (args : list val) : res out3 :=
  let* _ := arity 1 4 args in
  let* value := targ args 0 in
  let* iteration := targ_or args 1 (Ok (isc 0)) in
  let* last_ema := targ_or args 2 (Ok (zeros_like value)) in
  let last_sma_state := nth_error args 3 in
  let* (sma, next_sma_state, sma_init_state) :=
    call (SimpleMovingAverage period) (Leaf value) last_sma_state false in
  let last_sma_state := match last_sma_state with None => sma_init_state | Some s => s end in
  let* k := pyfloat_like value (f_of_D (ema_k period)) in
  let* a := tmul value k in
  let* k1 := pyfloat_like last_ema (f_of_D (dsub (d_of_Z 1) (ema_k period))) in
  let* b := tmul last_ema k1 in
  let* new_ema := tadd a b in
  let* c := int_op tless iteration period in
  let* r := tf_cond c (Ok (Tup [sma; next_sma_state])) (Ok (Tup [Leaf new_ema; last_sma_state])) in
  let* new_ema := item r 0 in
  let* new_sma_state := item r 1 in
  let* it1 := int_op tadd iteration 1 in
  Ok (new_ema,
      Tup [Leaf it1; new_ema; new_sma_state],
      Tup [Leaf iteration; Leaf last_ema; last_sma_state]).
Definition ExponentialMovingAverage (period : Z) : operator := Plain (ema_step period).

(** moving_average.py:65-88 *)
Definition rma_step (period : Z) (args : list val) : res out3 :=
  let* _ := arity 1 4 args in
  let* value := targ args 0 in
  let* iteration := targ_or args 1 (Ok (isc 0)) in
  let* last_rma := targ_or args 2 (Ok (zeros_like value)) in
  let last_sma_state := nth_error args 3 in
  let* (sma, next_sma_state, init_sma_state) :=
    call (SimpleMovingAverage period) (Leaf value) last_sma_state false in
  let last_sma_state := match last_sma_state with None => init_sma_state | Some s => s end in
  let* a := int_op tmul last_rma (period - 1) in
  let* b := tadd a value in
  let* new_rma := int_op tdiv b period in
  let* c := int_op tless iteration period in
  let* r := tf_cond c (Ok (Tup [sma; next_sma_state])) (Ok (Tup [Leaf new_rma; last_sma_state])) in
  let* new_rma := item r 0 in
  let* new_sma_state := item r 1 in
  let* it1 := int_op tadd iteration 1 in
  Ok (new_rma,
      Tup [Leaf it1; new_rma; new_sma_state],
      Tup [Leaf iteration; Leaf last_rma; last_sma_state]).
Definition RollingMovingAverage (period : Z) : operator := Plain (rma_step period).

(** ** moving_standard_deviation.py:11-28 *)
Definition msd_step (period : Z) (args : list val) : res out3 :=
  let* _ := arity 1 3 args in
  let* value := targ args 0 in
  let* iteration := targ_or args 1 (Ok (isc 0)) in
  let* prev_buffer := targ_or args 2 (zeros_buffer period value) in
  let* next_buffer := roll value prev_buffer in
  let* (_, var) := tmoments0 next_buffer in
  let* sqrt_var := tsqrt var in
  let* c := int_op tless iteration (period - 1) in
  let* volatility := tcond c (Ok (zeros_like value)) (Ok sqrt_var) in
  let* it1 := int_op tadd iteration 1 in
  Ok (Leaf volatility, Tup [Leaf it1; Leaf next_buffer], Tup [Leaf iteration; Leaf prev_buffer]).
Definition MovingStandardDeviation (period : Z) : operator := Plain (msd_step period).

(** ** bollinger_bands.py:12-32 *)
Definition bollinger_step (n : Z) (k : pynum) (args : list val) : res out3 :=
  let* _ := arity 1 3 args in
  let* value := targ args 0 in
  let* (sma_output, next_sma_state, sma_init) :=
    call (SimpleMovingAverage n) (Leaf value) (nth_error args 2) false in
  let* (volatility_output, next_volatility_state, volatility_init) :=
    call (MovingStandardDeviation n) (Leaf value) (nth_error args 1) false in
  let* sma_output := as_t sma_output in
  let* volatility_output := as_t volatility_output in
  let* kt := pynum_like volatility_output k in
  let* w := tmul volatility_output kt in
  let* lower_band := tsub sma_output w in
  let* upper_band := tadd sma_output w in
  Ok (Tup [Leaf lower_band; Leaf sma_output; Leaf upper_band],
      Tup [next_volatility_state; next_sma_state],
      Tup [volatility_init; sma_init]).
Definition BollingerBands (n : Z) (k : pynum) : operator := Plain (bollinger_step n k).

(** ** returns.py:11-29 and 36-54; [f] computes the value from [value / prev_value]. *)
Definition return_step (f : tensor -> res tensor) (period : Z) (args : list val) : res out3 :=
  let* _ := arity 1 3 args in
  let* value := targ args 0 in
  let* iteration := targ_or args 1 (Ok (isc 0)) in
  let* prev_buffer := targ_or args 2 (zeros_buffer period value) in
  let* prev_value := index0 prev_buffer (period - 1) in
  let* next_buffer := roll value prev_buffer in
  let* c1 := int_op tless iteration (period - 1) in
  let* c2 := int_op tequal prev_value 0 in
  let* c := tlogical_or c1 c2 in
  let* return_ := tcond c (Ok (zeros_like value))
                          (let* q := tdiv value prev_value in f q) in
  let* it1 := int_op tadd iteration 1 in
  Ok (Leaf return_, Tup [Leaf it1; Leaf next_buffer], Tup [Leaf iteration; Leaf prev_buffer]).
Definition Return (period : Z) : operator :=
  Plain (return_step (fun q => tsub q (fsc f1)) period).
Definition LogarithmicReturn (period : Z) : operator := Plain (return_step tlog period).

(** ** momentum.py:9-15 *)
Definition Momentum (period : Z) : operator :=
  Compose [SetDuring (fsc f0) period; Sub; Join [Identity; Lag period]; Fork 2].

(** ** moving_average_convergence_divergence.py *)
(** moving_average_convergence_divergence.py:16-21 *)
Definition macd_diff (value1 value2 iteration : tensor) (starting_iteration : Z) : res tensor :=
  let* c := int_op tless iteration starting_iteration in
  tcond c (Ok (zeros_like value1)) (tsub value1 value2).
(** moving_average_convergence_divergence.py:23-68 *)
Definition macd_step (slow fast macd_p : Z) (args : list val) : res out3 :=
  let* _ := arity 1 5 args in
  let* value := targ args 0 in
  let* iteration := targ_or args 1 (Ok (isc 0)) in
  let* (ema_slow, new_ema_slow_state, ema_slow_init) :=
    call (ExponentialMovingAverage slow) (Leaf value) (nth_error args 2) false in
  let* (ema_fast, new_ema_fast_state, ema_fast_init) :=
    call (ExponentialMovingAverage fast) (Leaf value) (nth_error args 3) false in
  let* ema_slow := as_t ema_slow in
  let* ema_fast := as_t ema_fast in
  let* macd := macd_diff ema_fast ema_slow iteration (slow - 1) in
  let* (ema_macd, new_ema_macd_state, ema_macd_init) :=
    call (ExponentialMovingAverage macd_p) (Leaf macd) (nth_error args 4) false in
  let ema_macd_state := match nth_error args 4 with None => ema_macd_init | Some s => s end in
  let* c := int_op tless iteration (slow - 1) in
  let* r := tf_cond c (Ok (Tup [Leaf (zeros_like value); ema_macd_state]))
                      (Ok (Tup [ema_macd; new_ema_macd_state])) in
  let* signal := item r 0 in
  let* signal := as_t signal in
  let* new_ema_macd_state := item r 1 in
  let* histogram := macd_diff macd signal iteration (slow + macd_p - 2) in
  let* it1 := int_op tadd iteration 1 in
  Ok (Tup [Leaf ema_slow; Leaf ema_fast; Leaf macd; Leaf signal; Leaf histogram],
      Tup [Leaf it1; new_ema_slow_state; new_ema_fast_state; new_ema_macd_state],
      Tup [Leaf iteration; ema_slow_init; ema_fast_init; ema_macd_init]).
Definition MovingAverageConvergenceDivergence (slow fast macd : Z) : operator :=
  Plain (macd_step slow fast macd).

(** ** moving_average_crossover.py:9-21 *)
Definition SimpleMovingAverageCrossover (slow fast : Z) : operator :=
  Compose [Sub;
           Join [Compose [SetDuring (fsc f0) (slow - 1); SimpleMovingAverage fast];
                 SimpleMovingAverage slow];
           Fork 2].

(** ** signals/zero_crossover_signal.py *)
(** zero_crossover_signal.py:6-11; tf.zeros and tf.fill(.., 1.0) are float32. *)
Definition sign (x : tensor) : res tensor :=
  let* s := tsign x in
  let* c := tgreater_equal s (zeros (sh x) F32) in
  let* a := fill (sh x) (fsc (f_of_Z 1)) in
  let* b := fill (sh x) (fsc (f_of_Z (-1))) in
  twhere c a b.
(** zero_crossover_signal.py:18-46 *)
Definition zero_crossover_step (args : list val) : res out3 :=
  let* _ := arity 1 3 args in
  let* value := targ args 0 in
  let zeros_ := zeros_like value in
  let* is_warmup := targ_or args 1 (Ok (bsc true)) in
  let* previous_direction := targ_or args 2 (Ok zeros_) in
  let warmup := let* s := sign value in Ok (Tup [Leaf zeros_; Leaf s]) in
  let nominal :=
    let* p := tmul value previous_direction in
    let* s := sign p in
    let* lt := tless s zeros_ in
    let* e := tequal value zeros_ in
    let* ne := tlogical_not e in
    let* is_zero_crossed := tlogical_and lt ne in
    let* negative_direction := tneg previous_direction in
    let* next_signal := twhere is_zero_crossed negative_direction zeros_ in
    let* next_direction := twhere is_zero_crossed negative_direction previous_direction in
    Ok (Tup [Leaf next_signal; Leaf next_direction]) in
  let* r := tf_cond is_warmup warmup nominal in
  let* next_signal := item r 0 in
  let* next_signal := as_t next_signal in
  let* next_direction := item r 1 in
  let* out := tcast_i32 next_signal in
  Ok (Leaf out, Tup [Leaf (bsc false); next_direction],
      Tup [Leaf is_warmup; Leaf previous_direction]).
Definition ZeroCrossoverSignal : operator := Plain zero_crossover_step.
(** signals/moving_average_convergence_divergence_signal.py:8-14 *)
Definition MovingAverageConvergenceDivergenceSignal (slow fast macd : Z) : operator :=
  Compose [SetDuring (isc 0) (slow + macd - 2);
           ZeroCrossoverSignal;
           Select (IdxOne 4);
           MovingAverageConvergenceDivergence slow fast macd].
(** signals/moving_average_crossover_signal.py:7-12 *)
Definition SimpleMovingAverageCrossoverSignal (slow fast : Z) : operator :=
  Compose [SetDuring (isc 0) slow; ZeroCrossoverSignal; SimpleMovingAverageCrossover slow fast].

(** ** relative_strength_index.py *)
(** relative_strength_index.py:43-46: tf.map_fn over a vector of tf.cond(x > 0.0, x, 0.0);
    a tensor of higher rank makes the predicate non-scalar. *)
Definition rsi_clip (keep : F -> bool) (diff : tensor) : res tensor :=
  match sh diff, dat diff with
  | [n], DF l => Ok (mkT [n] (DF (map (fun x => if keep x then x else f0) l)))
  | _, _ => Err EShape
  end.
(** relative_strength_index.py:51-54 *)
Definition compute_rsi (average_gain average_loss : tensor) : res tensor :=
  let* rs := tdiv average_gain average_loss in
  let* a := tadd (fsc (f_of_Z 1)) rs in
  let* b := tdiv (fsc (f_of_Z 100)) a in
  tsub (fsc (f_of_Z 100)) b.
(** relative_strength_index.py:28-36 *)
Definition compute_default_gain_loss (period : Z) (value buffer_state lag_ lal : tensor)
  : res (tensor * tensor) :=
  let* b0 := index0 buffer_state 0 in
  let* current_gain_or_loss := tsub value b0 in
  let* current_gain := tmaximum (fsc f0) current_gain_or_loss in
  let* m := tminimum (fsc f0) current_gain_or_loss in
  let* current_loss := tneg m in
  let* g1 := int_op tmul lag_ (period - 1) in
  let* g2 := tadd g1 current_gain in
  let* new_average_gain := int_op tdiv g2 period in
  let* l1 := int_op tmul lal (period - 1) in
  let* l2 := tadd l1 current_loss in
  let* new_average_loss := int_op tdiv l2 period in
  Ok (new_average_gain, new_average_loss).
(** relative_strength_index.py:38-49 *)
Definition compute_first_gain_loss (value buffer_state : tensor) : res (tensor * tensor) :=
  let* extended_buffer_state := concat0 (expand0 value) buffer_state in
  let* n := size0 extended_buffer_state in
  let* old := slice0 extended_buffer_state 1 (Z.of_nat n) in
  let* new := slice0 extended_buffer_state 0 (-1) in
  let* diff := tsub new old in
  let* new_gains := rsi_clip (fun x => fgt x f0) diff in
  let* new_losses := rsi_clip (fun x => flt x f0) diff in
  let* new_average_gain := treduce_all fmean new_gains in
  let* ml := treduce_all fmean new_losses in
  let* new_average_loss := tneg ml in
  Ok (new_average_gain, new_average_loss).
(** relative_strength_index.py:56-64 *)
Definition with_rsi (gl : res (tensor * tensor)) : res val :=
  let* (g, l) := gl in
  let* rsi := compute_rsi g l in
  Ok (Tup [Leaf g; Leaf l; Leaf rsi]).
(** relative_strength_index.py:12-85 *)
Definition rsi_step (period : Z) (args : list val) : res out3 :=
  let* _ := arity 1 5 args in
  let* value := targ args 0 in
  let* iteration := targ_or args 1 (Ok (isc 0)) in
  let buffer_state := nth_error args 2 in
  let* last_average_gain := targ_or args 3 (Ok (fsc f0)) in
  let* last_average_loss := targ_or args 4 (Ok (fsc f0)) in
  let* (_, next_buffer_state, buffer_init) :=
    call (Lag period) (Leaf value) buffer_state false in
  let buffer_state := match buffer_state with None => buffer_init | Some s => s end in
  let* buf := as_t buffer_state in
  let* c1 := int_op tequal iteration period in
  let* c2 := int_op tless iteration period in
  let* r := tf_case
    [(c1, with_rsi (compute_first_gain_loss value buf));
     (c2, Ok (Tup [Leaf (fsc f0); Leaf (fsc f0); Leaf (fsc f0)]))]
    (with_rsi (compute_default_gain_loss period value buf last_average_gain last_average_loss))
    true in
  let* new_average_gain := item r 0 in
  let* new_average_loss := item r 1 in
  let* rsi := item r 2 in
  let* it1 := int_op tadd iteration 1 in
  Ok (rsi,
      Tup [Leaf it1; next_buffer_state; new_average_gain; new_average_loss],
      Tup [Leaf iteration; buffer_init; Leaf last_average_gain; Leaf last_average_loss]).
Definition RelativeStrengthIndex (period : Z) : operator := Plain (rsi_step period).

(** ** average_true_range.py:12-32 *)
Definition true_range (low_price high_price last_close : tensor) : res tensor :=
  let* hl := tsub high_price low_price in
  let* c := int_op tequal last_close 0 in
  let* d1 := tsub high_price last_close in
  let* a1 := tabs d1 in
  let* hcp := twhere c (zeros_like last_close) a1 in
  let* d2 := tsub low_price last_close in
  let* a2 := tabs d2 in
  let* lcp := twhere c (zeros_like last_close) a2 in
  let* st := tstack [hl; hcp; lcp] in
  treduce_all frmax st.
Definition atr_step (period : Z) (args : list val) : res out3 :=
  let* _ := arity 3 5 args in
  let* close_price := targ args 0 in
  let* low_price := targ args 1 in
  let* high_price := targ args 2 in
  let* last_close := targ_or args 3 (Ok (zeros_like close_price)) in
  let* tr := true_range low_price high_price last_close in
  let* (atr, new_rma_state, rma_init_state) :=
    call (RollingMovingAverage period) (Leaf tr) (nth_error args 4) false in
  Ok (atr, Tup [Leaf close_price; new_rma_state], Tup [Leaf last_close; rma_init_state]).
Definition AverageTrueRange (period : Z) : operator := Plain (atr_step period).

(** ** supertrend.py *)
(** supertrend.py:25-54.  The predicates of the dict are tried in an order that is
    irrelevant because [exclusive=True] asserts that at most one holds. *)
Definition supertrend_default (factor : pynum)
   (close_price low_price high_price last_close last_trend_down last_trend_up last_trend atr : tensor)
  : res val :=
  let* s := tadd high_price low_price in
  let* two := pyfloat_like s (f_of_Z 2) in
  let* hl2 := tdiv s two in
  let* fa := pynum_like atr factor in
  let* w := tmul fa atr in
  let* up := tsub hl2 w in
  let* down := tadd hl2 w in
  let* cu := tgreater last_close last_trend_up in
  let* trend_up := tcond cu (tmaximum up last_trend_up) (Ok up) in
  let* cd := tless last_close last_trend_down in
  let* trend_down := tcond cd (tminimum down last_trend_down) (Ok down) in
  let* c1 := tgreater close_price last_trend_down in
  let* c2 := tless close_price last_trend_up in
  let* trend := tf_case [(c1, Ok (Leaf (isc 1))); (c2, Ok (Leaf (isc (-1))))]
     (let* z := int_op tequal last_trend 0 in
      tf_cond z (Ok (Leaf (isc 1))) (Ok (Leaf last_trend))) true in
  let* trend := as_t trend in
  let* ct := int_op tequal trend 1 in
  let* supertrend := tcond ct (Ok trend_up) (Ok trend_down) in
  Ok (Tup [Leaf trend_down; Leaf trend_up; Leaf trend; Leaf supertrend]).
(** supertrend.py:56-57 *)
Definition supertrend_warmup : val :=
  Tup [Leaf (fsc f0); Leaf (fsc f0); Leaf (isc 0); Leaf (fsc f0)].
(** supertrend.py:12-83 *)
Definition supertrend_step (atr_period : Z) (factor : pynum) (args : list val) : res out3 :=
  let* _ := arity 3 8 args in
  let* close_price := targ args 0 in
  let* low_price := targ args 1 in
  let* high_price := targ args 2 in
  let* last_close := targ_or args 4 (Ok (fsc f0)) in
  let* last_trend_down := targ_or args 5 (Ok (fsc f0)) in
  let* last_trend_up := targ_or args 6 (Ok (fsc f0)) in
  let* last_trend := targ_or args 7 (Ok (isc 0)) in
  let* (atr, next_atr_state, atr_init) :=
    call (AverageTrueRange atr_period)
         (Tup [Leaf close_price; Leaf low_price; Leaf high_price]) (nth_error args 3) false in
  let* atr := as_t atr in
  let* c := int_op tequal atr 0 in
  let* r := tf_cond c (Ok supertrend_warmup)
     (supertrend_default factor close_price low_price high_price last_close
        last_trend_down last_trend_up last_trend atr) in
  let* trend_down := item r 0 in
  let* trend_up := item r 1 in
  let* trend := item r 2 in
  let* supertrend := item r 3 in
  Ok (supertrend,
      Tup [next_atr_state; Leaf close_price; trend_down; trend_up; trend],
      Tup [atr_init; Leaf last_close; Leaf last_trend_down; Leaf last_trend_up; Leaf last_trend]).
Definition Supertrend (atr_period : Z) (factor : pynum) : operator :=
  Plain (supertrend_step atr_period factor).

(** ** heikin_ashi.py:12-47 *)
Definition heikin_ashi_step (args : list val) : res out3 :=
  let* _ := arity 4 6 args in
  let* open_price := targ args 0 in
  let* high_price := targ args 1 in
  let* low_price := targ args 2 in
  let* close_price := targ args 3 in
  let* prev_open_price := targ_or args 4 (Ok (zeros_like open_price)) in
  let* prev_close_price := targ_or args 5 (Ok (zeros_like close_price)) in
  let* c := int_op tequal prev_open_price 0 in
  let* ha_close_price := tcond c (Ok close_price)
     (let* st := tstack [close_price; low_price; high_price; open_price] in
      let* s := treduce_all fsum st in
      int_op tdiv s 4) in
  let* ha_open_price := tcond c (Ok open_price)
     (let* s := tadd prev_open_price prev_close_price in int_op tdiv s 2) in
  let* ha_low_price := tcond c (Ok low_price)
     (let* st := tstack [low_price; ha_close_price; ha_open_price] in
      treduce_all frmin st) in
  let* ha_high_price := tcond c (Ok high_price)
     (let* st := tstack [high_price; ha_close_price; ha_open_price] in
      treduce_all frmax st) in
  Ok (Tup [Leaf ha_open_price; Leaf ha_high_price; Leaf ha_low_price; Leaf ha_close_price],
      Tup [Leaf open_price; Leaf close_price],
      Tup [Leaf prev_open_price; Leaf prev_close_price]).
Definition HeikinAshi : operator := Plain heikin_ashi_step.

(** ** drawdown.py *)
(** drawdown.py:9-28 *)
Definition drawdown_step (args : list val) : res out3 :=
  let* _ := arity 1 3 args in
  let* value := targ args 0 in
  let* last_peak := targ_or args 1 (Ok (fsc f0)) in
  let* last_periods_under_water := targ_or args 2 (Ok (isc 0)) in
  let error_ := f_of_D d_error in
  let* new_peak := tmaximum value last_peak in
  let* d := tsub new_peak last_peak in
  let* ad := tabs d in
  let* e1 := pyfloat_like ad error_ in
  let* c1 := tgreater ad e1 in
  let* new_periods_under_water :=
    tcond c1 (Ok (isc 0)) (int_op tadd last_periods_under_water 1) in
  let* al := tabs last_peak in
  let* e2 := pyfloat_like al error_ in
  let* c2 := tless al e2 in
  let* drawdown := tcond c2 (Ok (fsc f0))
     (let* q := tdiv value last_peak in
      let* q1 := int_op tsub q 1 in
      tminimum (fsc f0) q1) in
  Ok (Tup [Leaf drawdown; Leaf new_periods_under_water],
      Tup [Leaf new_peak; Leaf new_periods_under_water],
      Tup [Leaf last_peak; Leaf last_periods_under_water]).
Definition Drawdown : operator := Plain drawdown_step.

(** drawdown.py:31-60, on rank-1 tensors given as lists. *)
Definition details (drawdown : list F) (drawdown_days : list Z) : res (list (F * Z)) :=
  let d := 0%Z :: drawdown_days ++ [0%Z] in
  let idx := seq 0 (length d - 1) in
  let period_beginnings_mask := map (fun x => Z.eqb x 1) d in
  let period_endings_mask := map_consecutive_fn (fun x y => Z.gtb y 0 && Z.eqb x 0) d in
  let* period_beginnings := filter_with_mask period_beginnings_mask idx in
  let* period_endings := filter_with_mask period_endings_mask idx in
  if Nat.eqb (length period_beginnings) (length period_endings) then
    Ok (map (fun be =>
          let begin := fst be - 1 in
          let end_ := snd be - 1 in
          (frmin (lslice begin (end_ + 1 - begin) drawdown),
           imax_list (lslice begin (end_ + 1 - begin) drawdown_days)))
        (combine period_beginnings period_endings))
  else Err EShape.
(** drawdown.py:62-66 *)
Definition avg (drawdown : list F) (drawdown_days : list Z) : res (F * F) :=
  let* ps := details drawdown drawdown_days in
  Ok (fmean (map fst ps), fmean (map (fun p => f_of_Z (snd p)) ps)).

(** ** sharpe_ratio.py *)
(** sharpe_ratio.py:19-26 *)
Definition compute_sharpe_ratio (adjusted_values : tensor) : res tensor :=
  let* (mean, var) := tmoments0 adjusted_values in
  let* stddev := tsqrt var in
  let* c := tequal stddev (fsc f0) in
  tcond c (Ok (fsc f0)) (tdiv mean stddev).
(** [t[0:iteration + 1]] *)
Definition first_slice (t iteration : tensor) : res tensor :=
  let* k := int_op tadd iteration 1 in slice_to t k.
(** sharpe_ratio.py:11-34 *)
Definition sharpe_step (period : Z) (args : list val) : res out3 :=
  let* _ := arity 2 4 args in
  let* return_ := targ args 0 in
  let* risk_free_rate := targ args 1 in
  let* last_adjusted_values := targ_or args 2 (zeros_buffer period return_) in
  let* iteration := targ_or args 3 (Ok (isc 0)) in
  let* x := tsub return_ risk_free_rate in
  let* new_adjusted_values := roll x last_adjusted_values in
  let* c := int_op tless iteration period in
  let* sharpe_ratio := tcond c
     (let* s := first_slice new_adjusted_values iteration in compute_sharpe_ratio s)
     (compute_sharpe_ratio new_adjusted_values) in
  let* it1 := int_op tadd iteration 1 in
  Ok (Leaf sharpe_ratio,
      Tup [Leaf new_adjusted_values; Leaf it1],
      Tup [Leaf last_adjusted_values; Leaf iteration]).
Definition SharpeRatio (period : Z) : operator := Plain (sharpe_step period).

(** ** skewness.py *)
(** skewness.py:19-29 *)
Definition compute_skewness (values : tensor) : res tensor :=
  let* (mean_x, var_x) := tmoments0 values in
  let* stddev_x := tsqrt var_x in
  let* p3 := tpow values 3 in
  let* mean_x3 := treduce_all fmean p3 in
  let* three := pyint_like mean_x 3 in
  let* a := tmul three mean_x in
  let* s2 := tpow stddev_x 2 in
  let* b := tmul a s2 in
  let* num1 := tsub mean_x3 b in
  let* m3 := tpow mean_x 3 in
  let* num := tsub num1 m3 in
  let* s3 := tpow stddev_x 3 in
  let* skewness := tdiv num s3 in
  let* c := tequal stddev_x (fsc f0) in
  tcond c (Ok (fsc f0)) (Ok skewness).
(** skewness.py:11-37 *)
Definition skewness_step (period : Z) (args : list val) : res out3 :=
  let* _ := arity 1 3 args in
  let* return_ := targ args 0 in
  let* last_returns := targ_or args 1 (zeros_buffer period return_) in
  let* iteration := targ_or args 2 (Ok (isc 0)) in
  let* new_returns := roll return_ last_returns in
  let* c := int_op tless iteration period in
  let* skewness := tcond c
     (let* s := first_slice new_returns iteration in compute_skewness s)
     (compute_skewness new_returns) in
  let* it1 := int_op tadd iteration 1 in
  Ok (Leaf skewness, Tup [Leaf new_returns; Leaf it1], Tup [Leaf last_returns; Leaf iteration]).
Definition Skewness (period : Z) : operator := Plain (skewness_step period).

(** ** volatility.py:7-12 *)
Definition Volatility (moving_period return_period : Z) : operator :=
  Compose [SetDuring (fsc f0) (Z.max moving_period return_period);
           MovingStandardDeviation moving_period;
           LogarithmicReturn return_period].

(** ** evaluators/risk_ratio_evaluator.py *)
(** risk_ratio_evaluator.py:15-158 *)
Definition risk_ratio_step (stop_factor limit_factor : pynum) (volatility_period : Z)
           (max_bet_duration : option Z) (args : list val) : res out3 :=
  let* _ := arity 4 11 args in
  let* low := targ args 0 in
  let* high := targ args 1 in
  let* close := targ args 2 in
  let* signal := targ args 3 in
  let* previous_stop_price := targ_or args 4 (Ok (fsc f0)) in
  let* previous_limit_price := targ_or args 5 (Ok (fsc f0)) in
  let* previous_buy_price := targ_or args 6 (Ok (fsc f0)) in
  let* previous_bet_duration := targ_or args 7 (Ok (isc 0)) in
  let* previous_successful_bets := targ_or args 8 (Ok (isc 0)) in
  let* previous_total_bets := targ_or args 9 (Ok (isc 0)) in
  let previous_volatility_state := nth_error args 10 in
  let* (volatility, next_volatility_state, volatility_init) :=
    call (MovingStandardDeviation volatility_period) (Leaf close) previous_volatility_state false in
  let previous_volatility_state :=
    match previous_volatility_state with None => volatility_init | Some s => s end in
  let* volatility := as_t volatility in
  let* is_null := int_op tequal previous_stop_price 0 in
  let* not_null := tlogical_not is_null in
  let* ls := tless_equal low previous_stop_price in
  let* stop_hit := tlogical_and not_null ls in
  let* gl := tgreater_equal high previous_limit_price in
  let* limit_hit := tlogical_and not_null gl in
  let* sig1 := int_op tequal signal 1 in
  let* buy_signal := tlogical_and is_null sig1 in
  let zero := Leaf (fsc f0) in
  let buy :=
    let* sf := pynum_like volatility stop_factor in
    let* sv := tmul sf volatility in
    let* stop_price := tsub close sv in
    let* lf := pynum_like volatility limit_factor in
    let* lv := tmul lf volatility in
    let* limit_price := tadd close lv in
    Ok (Tup [Leaf stop_price; Leaf limit_price; Leaf close; Leaf (isc 1);
             Leaf previous_successful_bets; Leaf previous_total_bets; Leaf (isc 1)]) in
  let wait :=
    let* next_bet_duration := int_op tadd previous_bet_duration 1 in
    Ok (Tup [Leaf previous_stop_price; Leaf previous_limit_price; Leaf previous_buy_price;
             Leaf next_bet_duration; Leaf previous_successful_bets; Leaf previous_total_bets;
             Leaf (isc 0)]) in
  let sell_after_stop_hit :=
    let* tb := int_op tadd previous_total_bets 1 in
    Ok (Tup [zero; zero; zero; Leaf (isc 0); Leaf previous_successful_bets; Leaf tb;
             Leaf (isc (-1))]) in
  let sell_after_limit_hit :=
    let* sb := int_op tadd previous_successful_bets 1 in
    let* tb := int_op tadd previous_total_bets 1 in
    Ok (Tup [zero; zero; zero; Leaf (isc 0); Leaf sb; Leaf tb; Leaf (isc (-1))]) in
  let sell_after_max_bet_duration_reached :=
    let* g := tgreater close previous_buy_price in
    let* sb := int_op tadd previous_successful_bets 1 in
    let* next_successful_bets := twhere g sb previous_successful_bets in
    let* tb := int_op tadd previous_total_bets 1 in
    Ok (Tup [zero; zero; zero; Leaf (isc 0); Leaf next_successful_bets; Leaf tb;
             Leaf (isc (-1))]) in
  let* last_case := match max_bet_duration with
    | None => Ok []
    | Some m =>
        let* e := int_op tequal previous_bet_duration m in
        let* max_bet_duration_reached := tlogical_and not_null e in
        Ok [(max_bet_duration_reached, sell_after_max_bet_duration_reached)]
    end in
  let cases := [(stop_hit, sell_after_stop_hit); (limit_hit, sell_after_limit_hit);
                (buy_signal, buy)] ++ last_case in
  let* next_state := tf_case cases wait false in
  let* ns := iter next_state in
  let* n4 := item next_state 4 in
  let* n5 := item next_state 5 in
  let* n6 := item next_state 6 in
  Ok (Tup [n4; n5; Leaf volatility; n6],
      Tup (firstn 6 ns ++ [next_volatility_state]),
      Tup [Leaf previous_stop_price; Leaf previous_limit_price; Leaf previous_buy_price;
           Leaf previous_bet_duration; Leaf previous_successful_bets; Leaf previous_total_bets;
           previous_volatility_state]).
Definition RiskRatioEvaluator (stop_factor limit_factor : pynum) (volatility_period : Z)
           (max_bet_duration : option Z) : operator :=
  Plain (risk_ratio_step stop_factor limit_factor volatility_period max_bet_duration).
End Finance.
