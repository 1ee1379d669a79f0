(** * PropsHelpers: properties C33 and C42 to C47 — drawdown periods, the automaton, the helpers over nested
    values, the stateless operators, the 32-bit counter.
    Vocabulary: SpecHelpers.v, Spec.v, Series.v, Positions.v. *)
From Coq Require Import String List ZArith Bool Lia.
From Verif Require Import Num Py PyFacts Tensor Streamable Spec Meta Common Finance B32 ER Order Series Formulas Positions
  ImplBasic ImplScalar ImplComp ImplMarket Library GenuineBase SpecHelpers HelperFacts DetailsFacts AutomatonFacts
  StatelessFacts CounterFacts CounterSeeded Witness WitnessSeries WitnessHelpers.
Import ListNotations.

(** ** C33: the periods of a drawdown series *)
(** Every series is cut in exactly one way into its maximal runs. *)
Theorem C33_periods_exist {A} (up : A -> bool) l :
  exists gs, runs_of up l gs /\ forall gs', runs_of up l gs' -> gs' = gs.
Proof. exact (runs_exist up l). Qed.
Print Assumptions C33_periods_exist.
(** The details of a Drawdown streamed from the start: one entry for every maximal run of positions under
    water, holding its least drawdown (reduce_min) and its length; the averages are the means of these. *)
Theorem C33_periods {N : FOps} xs : xs <> [] -> below31 (rev xs) ->
  exists out sf s0, call Drawdown (scalars xs) None true = Ok (drawdowns out, sf, s0) /\ length out = length xs /\
    forall gs, runs_of under out gs ->
      details (map fst out) (map snd out) = Ok (map (fun g => (frmin (map fst g), Z.of_nat (length g))) gs) /\
      avg (map fst out) (map snd out) =
        Ok (fmean (map (fun g => frmin (map fst g)) gs), fmean (map (fun g => f_of_Z (Z.of_nat (length g))) gs)).
Proof. exact (details_fresh xs). Qed.
Print Assumptions C33_periods.
(** Of a Drawdown resumed from an earlier call: an error when the first position continues a period that
    was already under way, the same as above otherwise. *)
Theorem C33_resumed {N : FOps} xs ys : (xs <> [] -> ys <> [] -> below31 (rev ys ++ rev xs) ->
     exists out1 s1 s0 out2 s2, call Drawdown (scalars xs) None true = Ok (drawdowns out1, s1, s0) /\
       call Drawdown (scalars ys) (Some s1) true = Ok (drawdowns out2, s2, s1) /\
       ((0 < snd (last out1 (f0, 0)) /\ 0 < snd (hd (f0, 0) out2)) ->
        details (map fst out2) (map snd out2) = Err EShape /\ avg (map fst out2) (map snd out2) = Err EShape) /\
       (snd (last out1 (f0, 0)) = 0 \/ snd (hd (f0, 0) out2) = 0 ->
        forall gs, runs_of under out2 gs ->
          details (map fst out2) (map snd out2) = Ok (map (fun g => (frmin (map fst g), Z.of_nat (length g))) gs) /\
          avg (map fst out2) (map snd out2) =
            Ok (fmean (map (fun g => frmin (map fst g)) gs), fmean (map (fun g => f_of_Z (Z.of_nat (length g))) gs))))%Z.
Proof. exact (details_resumed xs ys). Qed.
Print Assumptions C33_resumed.
(** Without any position under water there is no period, and the averages are NaN. *)
Theorem C33_no_period log32 xs : let N := B32 log32 in (xs <> [] -> below31 (rev xs) ->
  exists out sf s0, call Drawdown (scalars xs) None true = Ok (drawdowns out, sf, s0) /\
    (Forall (fun x => snd x <= 0) out ->
     details (map fst out) (map snd out) = Ok [] /\
     exists a b, avg (map fst out) (map snd out) = Ok (a, b) /\ fisnan a = true /\ fisnan b = true))%Z.
Proof. exact (no_period log32 xs). Qed.
Print Assumptions C33_no_period.
Example C33_met : h_prices <> [] /\ below31 (rev h_prices) /\ below31 (rev h_more ++ rev h_prices) /\
  call Drawdown (scalars h_prices) None true = Ok (drawdowns h_out, snd (fst h_run), snd h_run) /\
  (exists gs, runs_of under h_out gs /\ map (@length _) gs = [2; 2]) /\
  call Drawdown (scalars h_more) (Some (snd (fst h_run))) true = Ok (fst (fst h_run2), snd (fst h_run2), snd h_run2) /\
  snd (last h_out (f0, 0%Z)) = 2%Z /\ snd (hd (f0, 0%Z) (h_pairs (fst (fst h_run2)))) = 3%Z /\
  match call Drawdown (scalars [f1; f_of_Z 2]) None true with Ok (Tup [_; Leaf (mkT _ (DI days))], _, _) => days | _ => [1%Z] end = [0; 0]%Z.
Proof.
  split; [discriminate|]. split; [reflexivity|]. split; [reflexivity|]. split; [exact h_call|]. split; [exact h_runs|].
  split; [exact h_call2|]. split; [reflexivity|]. split; [reflexivity|]. vm_compute. reflexivity.
Qed.

(** ** C42: Automaton *)
(** A call takes the first transition of the table that leaves the current state and whose guard holds:
    the output is that of its action, the new state is its destination.  When there is none the output is the
    default and the state stays.  The current state is the initial one when no state is given. *)
Theorem C42_single_call {N : FOps} ts q0 dflt x st q o s' s0 :
  Forall (fun t => user_guard (tr_guard t) /\ user_fn (tr_action t)) ts ->
  genuine x -> (st = None /\ q = q0 \/ st = Some (Leaf (isc q))) ->
  call (Automaton ts q0 dflt) x st false = Ok (o, s', s0) ->
  exists ins q', inputs_are x ins /\ moves ts dflt ins q o q' /\ s' = Leaf (isc q') /\ s0 = Leaf (isc q).
Proof. exact (automaton_moves ts q0 dflt x st q o s' s0). Qed.
Print Assumptions C42_single_call.
(** What [fires] says: the transition taken is the first enabled one. *)
Theorem C42_first_transition {N : FOps} ins q ts t : fires ins q ts t <->
  exists before after, ts = before ++ t :: after /\ tr_from t = q /\ tr_guard t ins = Ok (bsc true) /\
    Forall (fun u => tr_from u <> q \/ tr_guard u ins = Ok (bsc false)) before.
Proof. exact (fires_meaning ins q ts t). Qed.
Print Assumptions C42_first_transition.
(** The output and the next state are determined. *)
Theorem C42_determined {N : FOps} ts dflt ins q o q' o2 q2 :
  moves ts dflt ins q o q' -> moves ts dflt ins q o2 q2 -> o2 = o /\ q2 = q'.
Proof. exact (moves_fun ts dflt ins q o q' o2 q2). Qed.
Print Assumptions C42_determined.
(** Streaming is a walk: each position moves from the state left by the one before.  The final state is the
    first one or the destination of a transition. *)
Theorem C42_streams {N : FOps} ts q0 dflt v st q n outs sf s0 :
  Forall (fun t => user_guard (tr_guard t) /\ user_fn (tr_action t)) ts -> user_fn dflt ->
  genuine v -> is_series n v -> (st = None /\ q = q0 \/ st = Some (Leaf (isc q))) ->
  uniform sk (Automaton ts q0 dflt) st v n ->
  call (Automaton ts q0 dflt) v st true = Ok (outs, sf, s0) ->
  exists os q', walk ts dflt q (rows n v) os q' /\ sf = Leaf (isc q') /\ s0 = Leaf (isc q) /\
    (forall i, i < n -> row i outs = nth i os (Tup [])) /\ (q' = q \/ In q' (map tr_to ts)).
Proof. exact (automaton_walks ts q0 dflt v st q n outs sf s0). Qed.
Print Assumptions C42_streams.
(** The hypothesis on structures holds when the actions and the default have outputs of one structure. *)
Theorem C42_one_structure {N : FOps} ts q0 dflt v st q n z :
  Forall (fun t => user_guard (tr_guard t) /\ user_fn (tr_action t)) ts ->
  genuine v -> is_series n v -> n > 0 -> (st = None /\ q = q0 \/ st = Some (Leaf (isc q))) ->
  (forall ins o, dflt ins = Ok o -> sk o = z) ->
  Forall (fun t => forall ins o, tr_action t ins = Ok o -> sk o = z) ts ->
  uniform sk (Automaton ts q0 dflt) st v n.
Proof. exact (automaton_uniform ts q0 dflt v st q n z). Qed.
Print Assumptions C42_one_structure.
(** A call succeeds when guards are booleans and actions have outputs of one type; for any table, any state. *)
Theorem C42_total {N : FOps} ts q0 dflt x ins z st q :
  genuine x -> inputs_are x ins -> decided ts dflt ins z -> (forall d, dflt ins = Ok d -> pyok d) ->
  (st = None /\ q = q0 \/ st = Some (Leaf (isc q))) ->
  exists o q', call (Automaton ts q0 dflt) x st false = Ok (o, Leaf (isc q'), Leaf (isc q)) /\ vmap dtype_of o = z.
Proof. exact (automaton_total ts q0 dflt x ins z st q). Qed.
Print Assumptions C42_total.
(** So does streaming, when this is so at each position, with outputs of one structure, shape and dtype. *)
Theorem C42_streams_total {N : FOps} ts q0 dflt v st q n z :
  Forall (fun t => user_guard (tr_guard t) /\ user_fn (tr_action t)) ts -> user_fn dflt ->
  genuine v -> is_series n v -> n > 0 -> (st = None /\ q = q0 \/ st = Some (Leaf (isc q))) ->
  (forall i, i < n -> exists ins, inputs_are (row i v) ins /\ decided_alike ts dflt ins z) ->
  exists outs q', call (Automaton ts q0 dflt) v st true = Ok (outs, Leaf (isc q'), Leaf (isc q)) /\ genuine outs.
Proof. exact (automaton_streams_total ts q0 dflt v st q n z). Qed.
Print Assumptions C42_streams_total.
Example C42_met : Forall (fun t => user_guard (tr_guard t) /\ user_fn (tr_action t)) h_table /\ user_fn (h_give 0) /\
  genuine h_inputs /\ is_series 5 h_inputs /\ uniform sk (Automaton h_table 0 (h_give 0)) None h_inputs 5 /\
  (exists s i, call (Automaton h_table 0 (h_give 0)) h_inputs None true = Ok (iser [1; -1; 0; 1; 0]%Z, s, i)) /\
  decided h_table (h_give 0) [Leaf (fsc (fz 3))] (Leaf I32) /\
  decided_alike h_table (h_give 0) [Leaf (fsc (fz 3))] (Leaf ([], I32)).
Proof.
  split; [exact h_table_ok|]. split; [exact h_default_ok|]. split; [gen|]. split; [exact h_inputs_series|].
  split.
  { apply (automaton_uniform _ 0%Z _ _ _ 0%Z 5 (sk (Leaf (isc 0)))); [exact h_table_ok|gen|exact h_inputs_series|lia|left; auto| |].
    - intros ins o H. injection H as <-. reflexivity.
    - repeat (apply Forall_cons; [intros ins o H; injection H as <-; reflexivity|]). constructor. }
  split; [exact (ex_intro _ _ (ex_intro _ _ h_auto_call))|].
  split; (split; [eexists; split; reflexivity|];
  apply Forall_cons; [split; [exists true; reflexivity|exists (Leaf (isc 1)); split; reflexivity]|];
  apply Forall_cons; [split; [exists false; reflexivity|exists (Leaf (isc (-1))); split; reflexivity]|];
  apply Forall_cons; [split; [exists false; reflexivity|exists (Leaf (isc 5)); split; reflexivity]|]; constructor).
Qed.

(** ** C43: any_value and any_nan *)
(** any_value is true iff some element of some tensor of the structure equals the value. *)
Theorem C43_any_value {N : FOps} v x : genuine v -> all_floats v ->
  exists b, any_value v x = Ok (bsc b) /\
    (b = true <-> exists t y, In t (leaves v) /\ In y (elements t) /\ feq y x = true).
Proof. exact (any_value_law v x). Qed.
Print Assumptions C43_any_value.
(** any_nan is true iff some element of some tensor of the structure is NaN. *)
Theorem C43_any_nan {N : FOps} v : genuine v -> all_floats v ->
  exists b, any_nan v = Ok (bsc b) /\
    (b = true <-> exists t y, In t (leaves v) /\ In y (elements t) /\ fisnan y = true).
Proof. exact (any_nan_law v). Qed.
Print Assumptions C43_any_nan.
Example C43_met : genuine h_floats /\ all_floats h_floats /\ any_value h_floats f0 = Ok (bsc true) /\
  any_value h_floats (fz 9) = Ok (bsc false) /\ any_nan h_floats = Ok (bsc false).
Proof. split; [exact h_floats_ok|]. split; [repeat constructor|]. repeat split; reflexivity. Qed.

(** ** C44: map_fn and flatten *)
(** map_fn keeps the structure and applies the function at every position.  [pyok]: the keys of a dict
    are distinct and there is no generator. *)
Theorem C44_map_fn {A B} (f : A -> B) (g : list (pyval A) -> res (pyval B)) v :
  pyok v -> (forall a, g [Leaf a] = Ok (Leaf (f a))) ->
  exists w, map_fn g v [v] = Ok w /\ sk w = sk v /\ (forall p, lookup p w = option_map f (lookup p v)) /\
    positions w = positions v.
Proof. exact (map_fn_law f g v). Qed.
Print Assumptions C44_map_fn.
(** Over two values of one structure the function receives the two leaves at the same position. *)
Theorem C44_map_fn_two {A B} (f : A -> A -> B) (g : list (pyval A) -> res (pyval B)) v1 v2 :
  pyok v1 -> sk v1 = sk v2 -> (forall a b, g [Leaf a; Leaf b] = Ok (Leaf (f a b))) ->
  exists w, map_fn g v1 [v1; v2] = Ok w /\ sk w = sk v1 /\
    forall p, lookup p w = match lookup p v1, lookup p v2 with Some a, Some b => Some (f a b) | _, _ => None end.
Proof. exact (map_fn_law2 f g v1 v2). Qed.
Print Assumptions C44_map_fn_two.
(** Mapping the identity changes nothing. *)
Theorem C44_identity {A} (g : list (pyval A) -> res (pyval A)) v :
  pyok v -> (forall a, g [Leaf a] = Ok (Leaf a)) -> map_fn g v [v] = Ok v.
Proof. exact (map_fn_id g v). Qed.
Print Assumptions C44_identity.
(** [positions] lists every position that holds a leaf, once. *)
Theorem C44_positions {A} (v : pyval A) : pyok v ->
  NoDup (positions v) /\ forall p, In p (positions v) <-> exists a, lookup p v = Some a.
Proof. exact (positions_spec v). Qed.
Print Assumptions C44_positions.
(** flatten lists the leaves, in the order of the positions. *)
Theorem C44_flatten {A} (v : pyval A) : pyok v ->
  map Some (flatten v) = map (fun p => option_map Leaf (lookup p v)) (positions v).
Proof. exact (flatten_law v). Qed.
Print Assumptions C44_flatten.
(** Flattening commutes with mapping. *)
Theorem C44_flatten_map {A B} (f : A -> B) (g : list (pyval A) -> res (pyval B)) v w :
  pyok v -> (forall a, g [Leaf a] = Ok (Leaf (f a))) -> map_fn g v [v] = Ok w ->
  mapM (fun x => g [x]) (flatten v) = Ok (flatten w).
Proof. exact (flatten_map f g v w). Qed.
Print Assumptions C44_flatten_map.
Example C44_met : pyok h_nested /\ length (positions h_nested) = 4 /\
  map_fn (fun l => match l with [Leaf a] => Ok (Leaf (a + 1)) | _ => Err EArity end) h_nested [h_nested] =
    Ok (Dct [("a", Leaf 2); ("b", Tup [Leaf 3; Lst [Leaf 4; Leaf 5]])])%string.
Proof. split; [exact h_nested_ok|]. split; reflexivity. Qed.

(** ** C45: stateless operators *)
(** An operator made from a function has no state, and its output at a position is the function of the inputs
    at that position alone. *)
Theorem C45_stateless {N : FOps} fn v st n outs sf s0 : user_fn fn -> genuine v -> is_series n v -> no_state st ->
  call (make_streamable fn) v st true = Ok (outs, sf, s0) ->
  sf = Tup [] /\ s0 = Tup [] /\
  (uniform sk (make_streamable fn) st v n -> forall i, i < n -> fn (arguments (row i v)) = Ok (row i outs)).
Proof. exact (stateless_sound fn v st n outs sf s0). Qed.
Print Assumptions C45_stateless.
(** Conversely, a series whose rows are the values of the function is the output. *)
Theorem C45_stateless_series {N : FOps} fn v st n w :
  user_fn fn -> genuine v -> is_series n v -> n > 0 -> no_state st ->
  genuine w -> Forall (fun t => exists s, sh t = n :: s) (leaves w) ->
  (forall i, i < n -> fn (arguments (row i v)) = Ok (row i w)) ->
  call (make_streamable fn) v st true = Ok (w, Tup [], Tup []).
Proof. exact (stateless_series fn v st n w). Qed.
Print Assumptions C45_stateless_series.
(** Add, Sub and Mul, element by element. *)
Theorem C45_arithmetic_floats {N : FOps} n s (a b : list F) st : n > 0 ->
  length a = prod (n :: s) -> length b = prod (n :: s) -> no_state st ->
  let v := Tup [Leaf (mkT (n :: s) (DF a)); Leaf (mkT (n :: s) (DF b))] in
  let each f := Leaf (mkT (n :: s) (DF (map (fun p => f (fst p) (snd p)) (combine a b)))) in
  call Add v st true = Ok (each fadd, Tup [], Tup []) /\
  call Sub v st true = Ok (each fsub, Tup [], Tup []) /\
  call Mul v st true = Ok (each fmul, Tup [], Tup []).
Proof. exact (arithmetic_f n s a b st). Qed.
Print Assumptions C45_arithmetic_floats.
(** On integers, with 32-bit wrap-around. *)
Theorem C45_arithmetic_ints {N : FOps} n s (a b : list Z) st : n > 0 ->
  length a = prod (n :: s) -> length b = prod (n :: s) -> no_state st ->
  let v := Tup [Leaf (mkT (n :: s) (DI a)); Leaf (mkT (n :: s) (DI b))] in
  let each f := Leaf (mkT (n :: s) (DI (map (fun p => wrap32 (f (fst p) (snd p))) (combine a b)))) in
  call Add v st true = Ok (each Z.add, Tup [], Tup []) /\
  call Sub v st true = Ok (each Z.sub, Tup [], Tup []) /\
  call Mul v st true = Ok (each Z.mul, Tup [], Tup []).
Proof. exact (arithmetic_i n s a b st). Qed.
Print Assumptions C45_arithmetic_ints.
Theorem C45_identity {N : FOps} n s t st : n > 0 -> wf t -> sh t = n :: s -> no_state st ->
  call Identity (Leaf t) st true = Ok (Leaf t, Tup [], Tup []).
Proof. exact (identity_series n s t st). Qed.
Print Assumptions C45_identity.
Theorem C45_fork {N : FOps} k n s t st : n > 0 -> wf t -> sh t = n :: s -> no_state st ->
  call (Fork k) (Leaf t) st true = Ok (Tup (repeat (Leaf t) k), Tup [], Tup []).
Proof. exact (fork_series k n s t st). Qed.
Print Assumptions C45_fork.
(** Positive is 1 where the input is above 0, Negative where it is below 0, and 0 elsewhere. *)
Theorem C45_positive_floats {N : FOps} n s (a : list F) st : n > 0 -> length a = prod (n :: s) -> no_state st ->
  call Positive (Leaf (mkT (n :: s) (DF a))) st true =
  Ok (Leaf (mkT (n :: s) (DF (map (fun x => if flt f0 x then f1 else f0) a))), Tup [], Tup []).
Proof. exact (positive_series_f n s a st). Qed.
Print Assumptions C45_positive_floats.
Theorem C45_negative_floats {N : FOps} n s (a : list F) st : n > 0 -> length a = prod (n :: s) -> no_state st ->
  call Negative (Leaf (mkT (n :: s) (DF a))) st true =
  Ok (Leaf (mkT (n :: s) (DF (map (fun x => if flt x f0 then f1 else f0) a))), Tup [], Tup []).
Proof. exact (negative_series_f n s a st). Qed.
Print Assumptions C45_negative_floats.
Theorem C45_positive_ints {N : FOps} n s (a : list Z) st : n > 0 -> length a = prod (n :: s) -> no_state st ->
  call Positive (Leaf (mkT (n :: s) (DI a))) st true =
  Ok (Leaf (mkT (n :: s) (DI (map (fun x => if (0 <? x)%Z then 1%Z else 0%Z) a))), Tup [], Tup []).
Proof. exact (positive_series_i n s a st). Qed.
Print Assumptions C45_positive_ints.
Theorem C45_negative_ints {N : FOps} n s (a : list Z) st : n > 0 -> length a = prod (n :: s) -> no_state st ->
  call Negative (Leaf (mkT (n :: s) (DI a))) st true =
  Ok (Leaf (mkT (n :: s) (DI (map (fun x => if (x <? 0)%Z then 1%Z else 0%Z) a))), Tup [], Tup []).
Proof. exact (negative_series_i n s a st). Qed.
Print Assumptions C45_negative_ints.
(** They are never both 1.  [orderly_arithmetic] in PropsSignal.v: IEEE arithmetic and exact arithmetic are
    orderly. *)
Theorem C45_never_both N usable n s a st : @orderly N usable -> n > 0 -> length a = prod (n :: s) -> no_state st ->
  exists pos neg,
    call Positive (Leaf (mkT (n :: s) (DF a))) st true = Ok (Leaf (mkT (n :: s) (DF pos)), Tup [], Tup []) /\
    call Negative (Leaf (mkT (n :: s) (DF a))) st true = Ok (Leaf (mkT (n :: s) (DF neg)), Tup [], Tup []) /\
    forall i, i < length a ->
      (nth i pos f0 = f0 \/ nth i pos f0 = f1) /\ (nth i neg f0 = f0 \/ nth i neg f0 = f1) /\
      (nth i pos f0 = f0 \/ nth i neg f0 = f0).
Proof. exact (signs_exclusive N usable n s a st). Qed.
Print Assumptions C45_never_both.
(** Select with a list of indices gives the list of the selected inputs; negative indices count from the end. *)
Theorem C45_select_list {N : FOps} l n x vs ws st :
  n > 0 -> genuine x -> inputs_are x vs -> is_series n x -> no_state st ->
  Forall2 (at_index vs) l ws ->
  call (Select (IdxList l)) x st true = Ok (Lst ws, Tup [], Tup []).
Proof. exact (select_list_series l n x vs ws st). Qed.
Print Assumptions C45_select_list.
(** Select with one index. *)
Theorem C45_select_one {N : FOps} j n x vs w st :
  n > 0 -> genuine x -> inputs_are x vs -> is_series n x -> no_state st ->
  at_index vs j w ->
  call (Select (IdxOne j)) x st true = Ok (w, Tup [], Tup []).
Proof. exact (select_one_series j n x vs w st). Qed.
Print Assumptions C45_select_one.
(** Select with a tuple of indices cannot be streamed: it returns a generator. *)
Theorem C45_select_tuple_never {N : FOps} l x st r :
  genuine x -> genuine_opt st -> call (Select (IdxTuple l)) x st true <> Ok r.
Proof. exact (select_tuple_never l x st r). Qed.
Print Assumptions C45_select_tuple_never.
Example C45_met : user_fn (h_give 4) /\ genuine h_inputs /\ is_series 5 h_inputs /\ no_state None /\
  length (map fz [1; 2]%Z) = prod (2 :: []) /\ at_index [w_series; w_head] (-1) w_head /\
  (exists r, call Add (Tup [w_series; w_series]) None true = Ok r) /\
  orderly (B32 (fun x => x)) b32_usable.
Proof.
  split; [intros args r _ H; injection H as <-; split; [exact I|repeat constructor]|]. split; [gen|].
  split; [exact h_inputs_series|]. split; [now left|]. split; [reflexivity|].
  split; [right; repeat split; cbn; lia|]. split; [runs|]. apply b32_orderly.
Qed.

(** ** C46: the 32-bit counters *)
(** Streamed from the start over a series of any length: zeros in the warm-up, the mean of the last [p]
    values up to position 2^31 - 1, zeros again for the next 2^31 positions. *)
Theorem C46_positions {N : FOps} s p xs : ((p >= 1)%nat -> xs <> [] -> shaped s (rev xs) ->
     exists out sf s0, call (SimpleMovingAverage (Z.of_nat p)) (tensors s xs) None true = Ok (tensors s out, sf, s0) /\
       length out = length xs /\
       forall n j, (n < length xs)%nat -> (j < prod s)%nat ->
         (Z.of_nat n < Z.of_nat p - 1 -> Z.of_nat n < 2147483648 -> number out j n = f0) /\
         (Z.of_nat p - 1 <= Z.of_nat n < 2147483648 ->
            number out j n = fdiv (fsum (map (fun i => number xs j (n - i)) (seq 0 p))) (f_of_Z (Z.of_nat p))) /\
         (2147483648 <= Z.of_nat n < 4294967296 -> number out j n = f0))%Z.
Proof. exact (sma_forever_positions s p xs). Qed.
Print Assumptions C46_positions.
(** At every point of every history, resumed or not. *)
Theorem C46_history {N : FOps} s p : ((p >= 1)%nat ->
     streams (SimpleMovingAverage (Z.of_nat p)) (shaped s) (tensors s) (fun hs => tensors s (map (each s (sma_forever p)) hs)))%Z.
Proof. exact (sma_forever_streams s p). Qed.
Print Assumptions C46_history.
(** A call resumed after 2^31 positions gives zeros only. *)
Theorem C46_zeros_again {N : FOps} s p : ((p >= 1)%nat -> exists st : list (list F) -> val,
     (forall xs, xs <> [] -> shaped s (rev xs) ->
        exists o, call (SimpleMovingAverage (Z.of_nat p)) (tensors s xs) None true = Ok (o, st (rev xs), st [])) /\
     (forall h xs, xs <> [] -> shaped s (rev xs ++ h) ->
        exists o, call (SimpleMovingAverage (Z.of_nat p)) (tensors s xs) (Some (st h)) true = Ok (tensors s o, st (rev xs ++ h), st h) /\
          (2147483648 <= Z.of_nat (length h) -> Z.of_nat (length h) + Z.of_nat (length xs) <= 4294967296 ->
             o = repeat (repeat f0 (prod s)) (length xs))))%Z.
Proof. exact (sma_zeros_again s p). Qed.
Print Assumptions C46_zeros_again.
(** SetDuring overrides its inputs again for the next 2^31 positions. *)
Theorem C46_set_during {N : FOps} d (a : elt d) p n v :
  genuine v -> is_series n v -> n > 0 -> Forall (fun t => dtype_of t = d) (leaves v) ->
  exists o sf s0, call (SetDuring (mkT [] (mkD d [a])) (Z.of_nat p)) v None true = Ok (o, sf, s0) /\
    genuine o /\ is_series n o /\
    forall i, i < n ->
      let filled := vmap (fun t => mkT (sh t) (mkD d (repeat a (prod (sh t))))) (row i v) in
      ((Z.of_nat i < 2147483648)%Z -> i < p -> row i o = filled) /\
      ((Z.of_nat i < 2147483648)%Z -> p <= i -> row i o = row i v) /\
      ((2147483648 <= Z.of_nat i < 4294967296)%Z -> row i o = filled).
Proof. exact (setduring_again d a p n v). Qed.
Print Assumptions C46_set_during.
(** The averages seeded by the simple average turn into it: at position n, for 2^31 + p - 1 <= n < 2^32 - p, both
    give the mean of the last [p] values. *)
Theorem C46_exponential {N : FOps} s p xs : p >= 1 -> xs <> [] -> shaped s (rev xs) ->
  exists out sf s0, call (ExponentialMovingAverage (Z.of_nat p)) (tensors s xs) None true = Ok (tensors s out, sf, s0) /\
    length out = length xs /\
    forall n j, n < length xs -> j < prod s ->
      (2147483648 + Z.of_nat p - 1 <= Z.of_nat n < 4294967296 - Z.of_nat p)%Z ->
      number out j n = fdiv (fsum (map (fun i => number xs j (n - i)) (seq 0 p))) (f_of_Z (Z.of_nat p)).
Proof. intros Hp NE OK. now apply (late_positions s p _ (ema_forever p)); auto. Qed.
Print Assumptions C46_exponential.
Theorem C46_rolling {N : FOps} s p xs : p >= 1 -> xs <> [] -> shaped s (rev xs) ->
  exists out sf s0, call (RollingMovingAverage (Z.of_nat p)) (tensors s xs) None true = Ok (tensors s out, sf, s0) /\
    length out = length xs /\
    forall n j, n < length xs -> j < prod s ->
      (2147483648 + Z.of_nat p - 1 <= Z.of_nat n < 4294967296 - Z.of_nat p)%Z ->
      number out j n = fdiv (fsum (map (fun i => number xs j (n - i)) (seq 0 p))) (f_of_Z (Z.of_nat p)).
Proof. intros Hp NE OK. now apply (late_positions s p _ (rma_forever p)); auto. Qed.
Print Assumptions C46_rolling.
(** At every point of every history. *)
Theorem C46_seeded_history {N : FOps} s p : p >= 1 ->
  streams (ExponentialMovingAverage (Z.of_nat p)) (shaped s) (tensors s) (fun hs => tensors s (map (each s (ema_forever p)) hs)) /\
  streams (RollingMovingAverage (Z.of_nat p)) (shaped s) (tensors s) (fun hs => tensors s (map (each s (rma_forever p)) hs)) /\
  streams (MovingStandardDeviation (Z.of_nat p)) (shaped s) (tensors s) (fun hs => tensors s (map (each s (msd_forever p)) hs)).
Proof. intros Hp. split; [|split]; [now apply ema_forever_streams|now apply rma_forever_streams|now apply msd_forever_streams]. Qed.
Print Assumptions C46_seeded_history.
(** MovingStandardDeviation gives zeros again for the next 2^31 positions. *)
Theorem C46_deviation {N : FOps} s p xs : p >= 1 -> xs <> [] -> shaped s (rev xs) ->
  exists out sf s0, call (MovingStandardDeviation (Z.of_nat p)) (tensors s xs) None true = Ok (tensors s out, sf, s0) /\
    length out = length xs /\
    forall n j, n < length xs -> j < prod s ->
      (2147483648 <= Z.of_nat n < 4294967296)%Z -> number out j n = f0.
Proof. exact (msd_forever_positions s p xs). Qed.
Print Assumptions C46_deviation.
Example C46_met : exists h : list (list F), shaped [] ([[f1]] ++ h) /\
  (2147483648 <= Z.of_nat (length h) /\ Z.of_nat (length h) + Z.of_nat (length [[f1]]) <= 4294967296)%Z.
Proof.
  exists (repeat [f1] (Z.to_nat 2147483648)). split.
  - apply Forall_app. split; [repeat constructor|]. apply Forall_forall. intros x H. apply repeat_spec in H. now subst.
  - rewrite repeat_length, Z2Nat.id by lia. cbn [length]. lia.
Qed.

(** ** C47: filter_with_mask and map_consecutive_fn *)
(** The values at the positions where the mask is true, in order. *)
Theorem C47_filter {A} (mask : list bool) (values : list A) :
  (forall i, nth_error mask i = Some true -> i < length values) ->
  filter_with_mask mask values = Ok (map snd (filter fst (combine mask values))).
Proof. exact (filter_law mask values). Qed.
Print Assumptions C47_filter.
(** An error when the mask is true at a position where there is no value. *)
Theorem C47_filter_error {A} (mask : list bool) (values : list A) i :
  nth_error mask i = Some true -> length values <= i -> exists e, filter_with_mask mask values = Err e.
Proof. exact (filter_fails mask values i). Qed.
Print Assumptions C47_filter_error.
(** One result per pair of neighbours: the function of the newer and the older one. *)
Theorem C47_consecutive {A B} (f : A -> A -> B) l d e : length (map_consecutive_fn f l) = length l - 1 /\
  forall i, S i < length l -> nth i (map_consecutive_fn f l) e = f (nth (S i) l d) (nth i l d).
Proof. exact (consecutive_law f l d e). Qed.
Print Assumptions C47_consecutive.
Example C47_met : (forall i, nth_error [true; false; true; false] i = Some true -> i < length [5; 6; 7]) /\
  filter_with_mask [true; false; true; false] [5; 6; 7] = Ok [5; 7] /\
  map_consecutive_fn (fun a b => a - b) [1; 4; 9] = [3; 5] /\
  nth_error [true; false; true] 2 = Some true /\ length [5; 6] <= 2.
Proof.
  split; [|repeat split; cbn; auto]. intros [|[|[|[|[|i]]]]]; cbn; intros H; try discriminate; lia.
Qed.
