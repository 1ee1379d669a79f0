(** * Common: tensorstream/common/*.py *)
From Coq Require Import List ZArith Bool.
From Verif Require Import Num Py Tensor Streamable Meta.
Import ListNotations.

Section Common.
Context {N : FOps}.

(** ** common/common.py *)
Definition bin_fn (f : tensor -> tensor -> res tensor) (args : list val) : res val :=
  let* _ := arity 2 2 args in
  let* x := targ args 0 in
  let* y := targ args 1 in
  let* z := f x y in Ok (Leaf z).
(** common.py:6-7 *)
Definition Sub : operator := make_streamable (bin_fn tsub).
(** common.py:10-11 *)
Definition Add : operator := make_streamable (bin_fn tadd).
(** common.py:14-15 *)
Definition Mul : operator := make_streamable (bin_fn tmul).
(** common.py:18-19 *)
Definition Fork (count : nat) : operator :=
  make_streamable (fun args =>
    match args with [x] => Ok (Tup (repeat x count)) | _ => Err EArity end).
(** common.py:22-23 *)
Definition Identity : operator :=
  make_streamable (fun args => match args with [x] => Ok x | _ => Err EArity end).
(** Python [values[i]] on a tuple. *)
Definition py_nth (values : list val) (i : Z) : res val :=
  let j := if Z.ltb i 0 then (i + Z.of_nat (length values))%Z else i in
  if Z.ltb j 0 then Err EIndex
  else match nth_error values (Z.to_nat j) with Some v => Ok v | None => Err EIndex end.
(** common.py:25-31.  With a tuple of indices the lambda returns a generator
    expression, which is lazy: index errors would only appear when it is
    consumed; since nothing ever can consume it the model evaluates it eagerly. *)
Inductive indices := IdxTuple (l : list Z) | IdxList (l : list Z) | IdxOne (i : Z).
Definition Select (idx : indices) : operator :=
  make_streamable (fun values =>
    match idx with
    | IdxTuple l => let* vs := mapM (py_nth values) l in Ok (Gen vs)
    | IdxList l => let* vs := mapM (py_nth values) l in Ok (Lst vs)
    | IdxOne i => py_nth values i
    end).
(** common.py:34-39 *)
Definition positive_fn (args : list val) : res val :=
  let* _ := arity 1 1 args in
  let* x := targ args 0 in
  let* c := tgreater x (zeros (sh x) (dtype_of x)) in
  let* r := twhere c (ones (sh x) (dtype_of x)) (zeros (sh x) (dtype_of x)) in
  Ok (Leaf r).
Definition Positive : operator := make_streamable positive_fn.
(** common.py:42-47 *)
Definition negative_fn (args : list val) : res val :=
  let* _ := arity 1 1 args in
  let* x := targ args 0 in
  let* c := tless x (zeros (sh x) (dtype_of x)) in
  let* r := twhere c (ones (sh x) (dtype_of x)) (zeros (sh x) (dtype_of x)) in
  Ok (Leaf r).
Definition Negative : operator := make_streamable negative_fn.

(** ** common/__init__.py *)
(** common/__init__.py:27-28 [tf.concat([[value], tensor[:-1]], axis=0)] *)
Definition roll (value t : tensor) : res tensor :=
  let* r := droplast0 t in concat0 (expand0 value) r.
(** common/__init__.py:23-25: tf.slice(vector, [0], [tf.size(vector) - 1]) only
    accepts a vector; on an empty one the size is -1, which tf.slice takes as "all that
    is left", that is nothing. *)
Definition shift (new_value vector : tensor) : res tensor :=
  match sh vector with
  | [n] => concat0 (expand0 new_value) (mkT [pred n] (dslice 0 (pred n) (dat vector)))
  | _ => Err EShape
  end.
(** common/__init__.py:4-6, on a rank-1 tensor given as a list:
    cons_couples[i] = (elems[i+1], elems[i]). *)
Definition map_consecutive_fn {A B} (fn : A -> A -> B) (elems : list A) : list B :=
  map (fun x => fn (fst x) (snd x)) (combine (tl elems) (removelast elems)).
(** common/__init__.py:8-21, on rank-1 tensors given as lists: a while loop
    writing values[i] at a running output index of a write-once array whose size
    is the number of true entries of the mask. *)
Definition count_true (mask : list bool) : nat := length (filter (fun b => b) mask).
Definition fwm_body {A} (mask : list bool) (values : list A)
           (v : nat * nat * list (option A)) : res (nat * nat * list (option A)) :=
  let '(i, output_index, output) := v in
  match nth_error mask i with
  | None => Err EIndex
  | Some false => Ok (S i, output_index, output)
  | Some true =>
      match nth_error values i with
      | None => Err EIndex
      | Some x =>
          match nth_error output output_index with
          | Some None => Ok (S i, S output_index, set_nth output_index (Some x) output)
          | _ => Err ETensorArray
          end
      end
  end.
Definition filter_with_mask {A} (mask : list bool) (values : list A) : res (list A) :=
  let size := length mask in
  let* (_, _, output) :=
    tf_while size (fun v : nat * nat * list (option A) => Nat.ltb (fst (fst v)) size)
      (fwm_body mask values) (O, O, repeat None (count_true mask)) in
  mapM (fun c => match c with Some x => Ok x | None => Err ETensorArray end) output.

(** ** common/lag.py:11-18 *)
Definition lag_step (period : Z) (args : list val) : res out3 :=
  let* _ := arity 1 2 args in
  let* value := targ args 0 in
  let* buffer_state := targ_or args 1 (zeros_buffer period value) in
  let* new_value := index0 buffer_state (-1) in
  let* new_buffer_state := roll value buffer_state in
  Ok (Leaf new_value, Leaf new_buffer_state, Leaf buffer_state).
Definition Lag (period : Z) : operator := Plain (lag_step period).

(** ** common/set_during.py:15-25 *)
Definition set_during_step (value : tensor) (period : Z) (inputs : val) (states : option val)
  : res out3 :=
  let states := match states with None => Tup [Leaf (isc 0)] | Some s => s end in
  let* it := item states 0 in
  let* iteration := as_t it in
  let* p := pyint_like iteration period in
  let* inp := map_fn (fun l => match l with
      | [Leaf x] =>
          let* c := tless iteration p in
          tf_cond c (let* f := fill (sh x) value in Ok (Leaf f)) (Ok (Leaf x))
      | _ => Err EType end) inputs [inputs] in
  let* one := pyint_like iteration 1 in
  let* next := tadd iteration one in
  Ok (inp, Tup [Leaf next], Tup [Leaf iteration]).
Definition SetDuring (value : tensor) (period : Z) : operator :=
  Meta (set_during_step value period).

(** ** common/extremum.py *)
(** extremum.py:7-21 and 24-36, [cmp] being tf.less resp. tf.greater. *)
Definition global_step (cmp : tensor -> tensor -> res tensor) (args : list val) : res out3 :=
  let* _ := arity 1 3 args in
  let* value := targ args 0 in
  let* global := targ_or args 1 (Ok (zeros_like value)) in
  let* is_first := targ_or args 2 (Ok (bsc true)) in
  let* l := cmp value global in
  let* p := tlogical_or is_first l in
  let* new := tf_cond p (Ok (Leaf value)) (Ok (Leaf global)) in
  Ok (new, Tup [new; Leaf (bsc false)], Tup [Leaf global; Leaf is_first]).
Definition GlobalMinimum : operator := Plain (global_step tless).
Definition GlobalMaximum : operator := Plain (global_step tgreater).
(** [t[:k]] for a scalar int tensor [k] *)
Definition slice_to (t k : tensor) : res tensor :=
  match sh k, dat k with
  | [], DI [z] => slice0 t 0 z
  | _, _ => Err EType
  end.
(** extremum.py:47-57 and 63-74, [red] and [ired] being tf.reduce_min resp. tf.reduce_max
    of float32 and of int32 values. *)
Definition local_step (red : list F -> F) (ired : list Z -> Z) (period : Z) (args : list val) : res out3 :=
  let* _ := arity 1 3 args in
  let* value := targ args 0 in
  let* last_values := targ_or args 1 (zeros_buffer period value) in
  let* iteration := targ_or args 2 (Ok (isc 0)) in
  let* new_last_values := shift value last_values in
  let* p1 := pyint_like iteration (period - 1) in
  let* one := pyint_like iteration 1 in
  let* it1 := tadd iteration one in
  let* c := tless iteration p1 in
  let* r := tf_cond c
     (let* s := slice_to new_last_values it1 in
      let* m := treduce_num red ired s in Ok (Leaf m))
     (let* m := treduce_num red ired new_last_values in Ok (Leaf m)) in
  Ok (r, Tup [Leaf new_last_values; Leaf it1], Tup [Leaf last_values; Leaf iteration]).
Definition LocalMinimum (period : Z) : operator := Plain (local_step frmin imin_list period).
Definition LocalMaximum (period : Z) : operator := Plain (local_step frmax imax_list period).

(** ** common/automaton.py *)
(** One row [from, to, condition, action] of the transition table. *)
Record transition := mkTr {
  tr_from : Z;
  tr_to : Z;
  tr_guard : list val -> res tensor;
  tr_action : list val -> res val
}.
(** automaton.py:10-30.  States are Python ints (int32). *)
Definition automaton_step (transitions : list transition) (init_state : Z)
           (default_action : list val -> res val) (inputs : val) (state : option val)
  : res out3 :=
  let* prev_state := match state with None => Ok (isc init_state) | Some s => as_t s end in
  let* ins := iter inputs in
  let* cases := mapM (fun t =>
      let* from := pyint_like prev_state (tr_from t) in
      let* e := tequal prev_state from in
      let* g := tr_guard t ins in
      let* cond := tlogical_and e g in
      let* output := tr_action t ins in
      Ok (cond, Ok (Tup [output; Leaf (isc (tr_to t))]))) transitions in
  let* def_value := default_action ins in
  let* r := tf_case cases (Ok (Tup [def_value; Leaf prev_state])) false in
  let* action := item r 0 in
  let* next_state := item r 1 in
  Ok (action, next_state, Leaf prev_state).
Definition Automaton (transitions : list transition) (init_state : Z)
           (default_action : list val -> res val) : operator :=
  Meta (automaton_step transitions init_state default_action).

(** ** common/correlation.py *)
(** correlation.py:23-30 *)
Definition compute_correlation (values1 values2 : tensor) : res tensor :=
  let* (mean1, var1) := tmoments0 values1 in
  let* (mean2, var2) := tmoments0 values2 in
  let* sd1 := tsqrt var1 in
  let* sd2 := tsqrt var2 in
  let* d1 := tsub values1 mean1 in
  let* d2 := tsub values2 mean2 in
  let* pr := tmul d1 d2 in
  let* covariance := treduce_mean0 pr in
  let* q := tmul sd1 sd2 in
  tdiv covariance q.
(** correlation.py:11-48 *)
Definition correlation_step (period : Z) (args : list val) : res out3 :=
  let* _ := arity 2 5 args in
  let* value1 := targ args 0 in
  let* value2 := targ args 1 in
  let* iteration := targ_or args 2 (Ok (isc 0)) in
  let* last_values1 := targ_or args 3 (zeros_buffer period value1) in
  let* last_values2 := targ_or args 4 (zeros_buffer period value2) in
  let* new_values1 := roll value1 last_values1 in
  let* new_values2 := roll value2 last_values2 in
  let* p := pyint_like iteration period in
  let* c := tless iteration p in
  let* correlation := tf_cond c (Ok (Leaf (zeros_like value1)))
     (let* r := compute_correlation new_values1 new_values2 in Ok (Leaf r)) in
  let* one := pyint_like iteration 1 in
  let* it1 := tadd iteration one in
  Ok (correlation,
      Tup [Leaf it1; Leaf new_values1; Leaf new_values2],
      Tup [Leaf iteration; Leaf last_values1; Leaf last_values2]).
Definition Correlation (period : Z) : operator := Plain (correlation_step period).
(** correlation.py:56-87 *)
Definition cross_correlation_step (period lag : Z) (args : list val) : res out3 :=
  let* _ := arity 2 5 args in
  let* value1 := targ args 0 in
  let* value2 := targ args 1 in
  let* iteration := targ_or args 2 (Ok (isc 0)) in
  let prev_correlation_state := nth_error args 3 in
  let* last_lag_buffer := targ_or args 4 (zeros_buffer lag value1) in
  let* lagged_value2 := index0 last_lag_buffer (lag - 1) in
  let* (correlation, next_correlation_state, correlation_init_state) :=
    call (Correlation period) (Tup [Leaf value1; Leaf lagged_value2])
         prev_correlation_state false in
  let prev_correlation_state :=
    match prev_correlation_state with None => correlation_init_state | Some s => s end in
  let* l := pyint_like iteration lag in
  let* c := tless iteration l in
  let* r := tf_cond c
     (Ok (Tup [Leaf (zeros_like value1); prev_correlation_state]))
     (Ok (Tup [correlation; next_correlation_state])) in
  let* correlation := item r 0 in
  let* new_correlation_state := item r 1 in
  let* new_lag_buffer := roll value2 last_lag_buffer in
  let* one := pyint_like iteration 1 in
  let* it1 := tadd iteration one in
  Ok (correlation,
      Tup [Leaf it1; new_correlation_state; Leaf new_lag_buffer],
      Tup [Leaf iteration; correlation_init_state; Leaf last_lag_buffer]).
Definition CrossCorrelation (period lag : Z) : operator :=
  Plain (cross_correlation_step period lag).
(** correlation.py:94-100 *)
Definition auto_correlation_step (period lag : Z) (args : list val) : res out3 :=
  let* _ := arity 1 2 args in
  let* value := targ args 0 in
  let* (corr, corr_next_state, corr_init_state) :=
    call (CrossCorrelation period lag) (Tup [Leaf value; Leaf value]) (nth_error args 1) false in
  Ok (corr, Tup [corr_next_state], Tup [corr_init_state]).
Definition AutoCorrelation (period lag : Z) : operator :=
  Plain (auto_correlation_step period lag).
End Common.
