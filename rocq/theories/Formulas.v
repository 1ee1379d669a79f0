(** * Formulas: what the indicators compute, on the history [h] of one number (the
    newest first).  Nothing here models code of /repo: these are the textbook
    definitions the operators are compared with. *)
From Coq Require Import List ZArith Bool.
From Verif Require Import Num Series.
Import ListNotations.

Section Formulas.
Context {N : FOps}.

(** The number that arrived [p] steps ago (0 if there is none). *)
Definition ago (p : nat) (h : list F) : F := nth p h f0.
Definition now (h : list F) : F := ago 0 h.

(** Simple moving average of period [p]; 0 before [p] numbers are known. *)
Definition sma (p : nat) (h : list F) : F :=
  if length h <? p then f0 else fdiv (fsum (firstn p h)) (f_of_Z (Z.of_nat p)).
(** Exponential moving average: k = 2 / (p + 1), seeded by the simple average. *)
Definition ema_factor (p : nat) : D :=
  ddiv (d_of_Z 2) (dadd (d_of_Z (Z.of_nat p)) (d_of_Z 1)).
Fixpoint ema (p : nat) (h : list F) : F :=
  match h with
  | [] => f0
  | x :: r =>
      if length h <=? p then sma p h
      else fadd (fmul x (f_of_D (ema_factor p)))
                (fmul (ema p r) (f_of_D (dsub (d_of_Z 1) (ema_factor p))))
  end.
(** Rolling (Wilder) moving average. *)
Fixpoint rma (p : nat) (h : list F) : F :=
  match h with
  | [] => f0
  | x :: r =>
      if length h <=? p then sma p h
      else fdiv (fadd (fmul (rma p r) (f_of_Z (Z.of_nat p - 1))) x) (f_of_Z (Z.of_nat p))
  end.
(** Population standard deviation of the last [p] numbers. *)
Definition msd (p : nat) (h : list F) : F :=
  if length h <? p then f0 else fsqrt (fvar (firstn p h)).
(** Return and logarithmic return over [p] steps. *)
Definition change (f : F -> F) (p : nat) (h : list F) : F :=
  if (length h <=? p) || feq (ago p h) f0 then f0 else f (fdiv (now h) (ago p h)).
Definition ret : nat -> list F -> F := change (fun q => fsub q f1).
Definition log_ret : nat -> list F -> F := change flog.
(** Momentum. *)
Definition momentum (p : nat) (h : list F) : F :=
  if length h <=? p then f0 else fsub (now h) (ago p h).
(** Moving average convergence divergence. *)
Definition macd (slow fast : nat) (h : list F) : F :=
  if length h <? slow then f0 else fsub (ema fast h) (ema slow h).
(* the exponential average of the macd values from the first defined one on *)
Definition macd_signal (slow fast m : nat) (h : list F) : F :=
  if length h <? slow then f0
  else ema m (firstn (length h + 1 - slow) (trail (macd slow fast) h)).
Definition macd_histogram (slow fast m : nat) (h : list F) : F :=
  if length h + 1 <? slow + m then f0 else fsub (macd slow fast h) (macd_signal slow fast m h).
(** Volatility: deviation of the last [m] emitted logarithmic returns. *)
Definition volatility (m r : nat) (h : list F) : F :=
  if length h <=? Nat.max m r then f0 else msd m (trail (log_ret r) h).
(** Crossing of zero: the side (true: positive) of the last value different from 0, and
    the signal +1 / -1 when the side changes.  Nothing, like 0, counts as positive. *)
Fixpoint side (h : list F) : bool :=
  match h with
  | [] => true
  | x :: r => if flt x f0 then false else if flt f0 x then true else side r
  end.
Definition crossing (h : list F) : Z :=
  match h with
  | [] | [_] => 0%Z
  | _ :: r => if Bool.eqb (side h) (side r) then 0%Z else if side h then 1%Z else (-1)%Z
  end.

(** Running extremum: [lt a b] says that [a] beats [b]. *)
Fixpoint running (lt : F -> F -> bool) (h : list F) : F :=
  match h with
  | [] => f0
  | [x] => x
  | x :: r => if lt x (running lt r) then x else running lt r
  end.
(** Mean over standard deviation of the last (at most) [p] excess returns; the history
    is made of pairs (return, risk-free rate). *)
Definition excess (x : F * F) : F := fsub (fst x) (snd x).
Definition ratio (w : list F) : F :=
  if feq (fsqrt (fvar w)) f0 then f0 else fdiv (fmean w) (fsqrt (fvar w)).
Definition sharpe (p : nat) (h : list (F * F)) : F := ratio (firstn p (map excess h)).
(** Skewness of the last (at most) [p] values, by the formula
    (E x^3 - 3 m s^2 - m^3) / s^3. *)
Definition skew_of (w : list F) : F :=
  let m := fmean w in
  let s := fsqrt (fvar w) in
  if feq s f0 then f0
  else fdiv (fsub (fsub (fmean (map (fun x => fpow x 3) w)) (fmul (fmul (f_of_Z 3) m) (fpow s 2))) (fpow m 3))
            (fpow s 3).
Definition skewness (p : nat) (h : list F) : F := skew_of (firstn p h).
(** Correlation coefficient of two windows; of the last [p] pairs; of the first series with
    the second one delayed by [l]. *)
Definition covariance (u v : list F) : F :=
  fmean (map (fun xy => fmul (fsub (fst xy) (fmean u)) (fsub (snd xy) (fmean v))) (combine u v)).
Definition corr_of (u v : list F) : F :=
  fdiv (covariance u v) (fmul (fsqrt (fvar u)) (fsqrt (fvar v))).
Definition correlation (p : nat) (h : list (F * F)) : F :=
  if length h <=? p then f0 else corr_of (firstn p (map fst h)) (firstn p (map snd h)).
Definition delayed (l : nat) (h : list (F * F)) : list (F * F) :=
  combine (map fst h) (skipn l (map snd h)).
Definition cross_correlation (p l : nat) (h : list (F * F)) : F :=
  if length h <=? l + p then f0 else correlation p (delayed l h).

(** Successive changes, and the two halves of a change. *)
Fixpoint changes (h : list F) : list F :=
  match h with
  | x :: r => match r with [] => [] | y :: _ => fsub x y :: changes r end
  | [] => []
  end.
Definition rise (x : F) : F := if flt f0 x then x else f0.
Definition fall (x : F) : F := if flt x f0 then x else f0.
(** Wilder's average of period [p] of a series [c]: the plain average [seed] of the first [p]
    elements, then (previous * (p - 1) + new) / p. *)
Fixpoint wilder (p : nat) (seed : list F -> F) (new : F -> F) (c : list F) : F :=
  match c with
  | [] => f0
  | x :: r =>
      if length c <? p then f0
      else if length c =? p then seed c
      else fdiv (fadd (fmul (wilder p seed new r) (f_of_Z (Z.of_nat p - 1))) (new x)) (f_of_Z (Z.of_nat p))
  end.
(** Relative strength index. *)
Definition average_gain (p : nat) (h : list F) : F :=
  wilder p (fun c => fmean (map rise c)) (fun d => fmax f0 d) (changes h).
Definition average_loss (p : nat) (h : list F) : F :=
  wilder p (fun c => fneg (fmean (map fall c))) (fun d => fneg (fmin f0 d)) (changes h).
Definition rsi (p : nat) (h : list F) : F :=
  if length h <=? p then f0
  else fsub (f_of_Z 100)
         (fdiv (f_of_Z 100) (fadd (f_of_Z 1) (fdiv (average_gain p h) (average_loss p h)))).

(** Prices of one period. *)
Record candle := Candle { c_open : F; c_high : F; c_low : F; c_close : F }.
Definition last_close (h : list candle) : F := match h with [] => f0 | c :: _ => c_close c end.
Definition last_open (h : list candle) : F := match h with [] => f0 | c :: _ => c_open c end.
(** True range, given the previous close (0: unknown); average true range. *)
Definition range (prev : F) (c : candle) : F :=
  frmax [fsub (c_high c) (c_low c);
         if feq prev f0 then f0 else fabs (fsub (c_high c) prev);
         if feq prev f0 then f0 else fabs (fsub (c_low c) prev)].
Fixpoint ranges (h : list candle) : list F :=
  match h with [] => [] | c :: r => range (last_close r) c :: ranges r end.
Definition atr (p : nat) (h : list candle) : F := rma p (ranges h).
(** Heikin-Ashi candles as documented in the source: from the previous raw open and close. *)
Definition heikin_ashi (h : list candle) : candle :=
  match h with
  | [] => Candle f0 f0 f0 f0
  | c :: r =>
      if feq (last_open r) f0 then c
      else
        let close := fdiv (fsum [c_close c; c_low c; c_high c; c_open c]) (f_of_Z 4) in
        let open := fdiv (fadd (last_open r) (last_close r)) (f_of_Z 2) in
        Candle open (frmax [c_high c; close; open]) (frmin [c_low c; close; open]) close
  end.
(** Supertrend: the two trend lines, the direction (1, -1; 0: none yet) and the emitted line. *)
Record trend := Trend { t_down : F; t_up : F; t_dir : Z; t_line : F }.
Definition no_trend : trend := Trend f0 f0 0 f0.
Definition next_trend (k a : F) (c : candle) (prev_close : F) (s : trend) : trend :=
  let middle := fdiv (fadd (c_high c) (c_low c)) (f_of_Z 2) in
  let lower := fsub middle (fmul k a) in
  let upper := fadd middle (fmul k a) in
  let up := if flt (t_up s) prev_close then fmax lower (t_up s) else lower in
  let down := if flt prev_close (t_down s) then fmin upper (t_down s) else upper in
  let dir := if flt (t_down s) (c_close c) then 1%Z
             else if flt (c_close c) (t_up s) then (-1)%Z
             else if Z.eqb (t_dir s) 0 then 1%Z else t_dir s in
  Trend down up dir (if Z.eqb dir 1 then up else down).
Fixpoint supertrend (p : nat) (k : F) (h : list candle) : trend :=
  match h with
  | [] => no_trend
  | c :: r =>
      if feq (atr p h) f0 then no_trend
      else next_trend k (atr p h) c (last_close r) (supertrend p k r)
  end.
(** The newest close is above the down line and below the up line. *)
Definition conflict (p : nat) (k : F) (h : list candle) : bool :=
  match h with
  | [] => false
  | c :: r => negb (feq (atr p h) f0) && flt (t_down (supertrend p k r)) (c_close c) &&
              flt (c_close c) (t_up (supertrend p k r))
  end.
Fixpoint calm (p : nat) (k : F) (h : list candle) : Prop :=
  match h with [] => True | c :: r => conflict p k h = false /\ calm p k r end.

(** Drawdown from the peak of the preceding values, and the time under water. *)
Definition tolerance : F := f_of_D d_error.
Fixpoint peak (h : list F) : F := match h with [] => f0 | x :: r => fmax x (peak r) end.
Definition drawdown (h : list F) : F :=
  match h with
  | [] => f0
  | x :: r => if flt (fabs (peak r)) tolerance then f0 else fmin f0 (fsub (fdiv x (peak r)) f1)
  end.
Fixpoint under_water (h : list F) : Z :=
  match h with
  | [] => 0%Z
  | x :: r => if flt tolerance (fabs (fsub (peak h) (peak r))) then 0%Z else (under_water r + 1)%Z
  end.

(** Risk-ratio evaluation. *)
Record tick := Tick { k_low : F; k_high : F; k_close : F; k_signal : Z }.
(** What is held (stop 0: nothing), since when, the bets so far and the last emitted signal. *)
Record book := Book { b_stop : F; b_limit : F; b_price : F; b_age : Z; b_wins : Z; b_bets : Z; b_signal : Z }.
Definition empty_book : book := Book f0 f0 f0 0 0 0 0.
Definition sold (wins bets : Z) : book := Book f0 f0 f0 0 wins bets (-1).
Definition next_book (ks kl : F) (duration : option Z) (vol : F) (t : tick) (b : book) : book :=
  let holding := negb (feq (b_stop b) f0) in
  if holding && fle (k_low t) (b_stop b) then sold (b_wins b) (b_bets b + 1)
  else if holding && fle (b_limit b) (k_high t) then sold (b_wins b + 1) (b_bets b + 1)
  else if negb holding && Z.eqb (k_signal t) 1 then
    Book (fsub (k_close t) (fmul ks vol)) (fadd (k_close t) (fmul kl vol)) (k_close t) 1 (b_wins b) (b_bets b) 1
  else if holding && match duration with None => false | Some m => Z.eqb (b_age b) m end then
    sold (if flt (b_price b) (k_close t) then b_wins b + 1 else b_wins b) (b_bets b + 1)
  else Book (b_stop b) (b_limit b) (b_price b) (b_age b + 1) (b_wins b) (b_bets b) 0.
Fixpoint evaluation (ks kl : F) (p : nat) (duration : option Z) (h : list tick) : book :=
  match h with
  | [] => empty_book
  | t :: r => next_book ks kl duration (msd p (map k_close h)) t (evaluation ks kl p duration r)
  end.
End Formulas.
