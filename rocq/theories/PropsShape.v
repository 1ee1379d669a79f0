(** * PropsShape: properties C49 and C50 — on inputs of the right shapes and dtypes no operator fails, and the
    initial state only depends on these shapes and dtypes.  Vocabulary: Spec.v and Shapes.v. *)
From Coq Require Import List ZArith Bool Lia.
From Verif Require Import Num Py PyFacts Tensor Streamable Spec SpecMeta Meta Common Finance Library
  StreamProofs GenuineBase GenuineLib InitLib Shapes ShapeFacts ShapeProofs ShapeStream ShapeInit ShapeMap ShapeLib ShapeMain Witness WitnessFill.
Import ListNotations.

(** [well_shaped op zx zo zs] (Shapes.v) gives the shapes and dtypes [zo] of the outputs and [zs] of the states of
    an operator on inputs of shapes and dtypes [zx]; [wide n z] is [z] with one more dimension, [n], in front. *)

(** ** C49: no failure *)
(** A single step, from no state or any state of the right shapes. *)
Theorem C49_step {N : FOps} op zx zo zs x st :
  well_shaped op zx zo zs -> genuine x -> sig x = zx -> state_shaped st zs ->
  exists o s i, call op x st false = Ok (o, s, i) /\
    genuine o /\ sig o = zo /\ genuine s /\ sig s = zs /\ genuine i /\ sig i = zs.
Proof. exact (shaped_step op zx zo zs x st). Qed.
Print Assumptions C49_step.
(** A series of [n > 0] elements: the streamed call gives the outputs and the final state of the single steps. *)
Theorem C49_stream {N : FOps} op zx zo zs v st n :
  well_shaped op zx zo zs -> leaves zx <> [] -> n > 0 -> genuine v -> sig v = wide n zx -> state_shaped st zs ->
  exists outs sf s0 os, call op v st true = Ok (outs, sf, s0) /\
    genuine outs /\ sig outs = wide n zo /\ genuine sf /\ sig sf = zs /\ genuine s0 /\ sig s0 = zs /\
    starts_from op st (row 0 v) s0 /\ steps op s0 (rows n v) = Ok (os, sf) /\
    forall i, i < n -> row i outs = nth i os (Tup []).
Proof. exact (shaped_stream op zx zo zs v st n). Qed.
Print Assumptions C49_stream.
(** The stateless operators, for every shape and numeric dtype. *)
Theorem C49_stateless {N : FOps} s d zx z k i j : d <> BOOL -> parts zx = [z] ->
  well_shaped Sub (Tup [Leaf (s, d); Leaf (s, d)]) (Leaf (s, d)) (Tup []) /\
  well_shaped Add (Tup [Leaf (s, d); Leaf (s, d)]) (Leaf (s, d)) (Tup []) /\
  well_shaped Mul (Tup [Leaf (s, d); Leaf (s, d)]) (Leaf (s, d)) (Tup []) /\
  well_shaped Positive (Leaf (s, d)) (Leaf (s, d)) (Tup []) /\
  well_shaped Negative (Leaf (s, d)) (Leaf (s, d)) (Tup []) /\
  well_shaped Identity zx z (Tup []) /\ well_shaped (Fork k) zx (Tup (repeat z k)) (Tup []) /\
  (forall zs zi, nth_error zs j = Some zi -> i = Z.of_nat j \/ i = (Z.of_nat j - Z.of_nat (length zs))%Z ->
     well_shaped (Select (IdxOne i)) (Tup zs) zi (Tup [])).
Proof. exact (shaped_stateless s d zx z k i j). Qed.
Print Assumptions C49_stateless.
(** The compositions shipped with the library, for every shape and periods of at least 1. *)
Theorem C49_compositions {N : FOps} p q m s : (1 <= p)%Z -> (1 <= q)%Z -> (1 <= m)%Z ->
  well_shaped (Momentum p) (tf s) (tf s) (Tup [Tup []; Tup [Tup []; past p s F32]; Tup []; Tup [int]]) /\
  well_shaped (SimpleMovingAverageCrossover p q) (tf s) (tf s)
    (Tup [Tup []; Tup [Tup [s_sma q s; Tup [int]]; s_sma p s]; Tup []]) /\
  well_shaped (SimpleMovingAverageCrossoverSignal p q) (tf s) (ti s)
    (Tup [Tup [Tup []; Tup [Tup [s_sma q s; Tup [int]]; s_sma p s]; Tup []]; Tup [bool_; tf s]; Tup [int]]) /\
  well_shaped (MovingAverageConvergenceDivergenceSignal p q m) (tf s) (ti s)
    (Tup [Tup [int; s_ema p s; s_ema q s; s_ema m s]; Tup []; Tup [bool_; tf s]; Tup [int]]) /\
  well_shaped (Volatility p q) num num (Tup [s_sma q []; s_sma p []; Tup [int]]).
Proof. exact (shaped_compositions p q m s). Qed.
Print Assumptions C49_compositions.
(** The difference of a moving average and a forward-filled exponential one, on one series and on two columns. *)
Definition f_op {N : FOps} : operator := Compose [Sub; Join [SimpleMovingAverage 3; FFill (ExponentialMovingAverage 2)]; Fork 2].
Definition f_state {N : FOps} : ztype := Tup [Tup []; Tup [s_sma 3 []; Tup [num; s_ema 2 []]]; Tup []].
Lemma f_shaped {N : FOps} : well_shaped f_op num num f_state.
Proof.
  apply ws_compose. cbn [rev app]. eapply ws_next; [apply (ws_fork 2 num num); reflexivity|].
  eapply ws_next; [|apply ws_last, ws_sub; discriminate]. eapply ws_join; [left; reflexivity|].
  eapply ws_more; [eapply ws_step; [apply tk_sma; lia|reflexivity]|]. eapply ws_more; [|apply ws_none].
  apply ws_ffill; [repeat constructor|split; [intros []|exact I]| |eapply ws_step; [apply tk_ema; lia|reflexivity]].
  left. split; [intros []|exact I].
Qed.
Example C49_met : well_shaped f_op num num f_state /\ leaves num <> [] /\ genuine w_series /\ sig w_series = wide 5 num /\
  well_shaped (Map f_op 2) (wide 2 num) (wide 2 num) (Tup [wide 2 f_state]) /\
  genuine c_rows /\ sig c_rows = wide 3 (wide 2 num).
Proof.
  split; [exact f_shaped|]. split; [discriminate|]. split; [gen|]. split; [reflexivity|].
  split; [apply ws_map; [lia|discriminate|exact f_shaped]|]. split; [gen|reflexivity].
Qed.

(** ** C02 and C03 without any assumption on success *)
(** Streaming two chunks gives the outputs and the final state of streaming the whole series. *)
Theorem C02_shaped {N : FOps} op zx zo zs a b v st n m :
  well_shaped op zx zo zs -> leaves zx <> [] -> n > 0 -> m > 0 -> genuine v -> sig v = wide (n + m) zx -> state_shaped st zs ->
  genuine a -> genuine b -> is_concat n m a b v ->
  exists o s2 s0 o1 s1 o2,
    call op v st true = Ok (o, s2, s0) /\ call op a st true = Ok (o1, s1, s0) /\ call op b (Some s1) true = Ok (o2, s2, s1) /\
    (forall i, i < n -> row i o = row i o1) /\ (forall i, i < m -> row (n + i) o = row i o2).
Proof. exact (shaped_chunks op zx zo zs a b v st n m). Qed.
Print Assumptions C02_shaped.
Example C02_shaped_met : genuine w_head /\ genuine w_tail /\ is_concat 2 3 w_head w_tail w_series /\ sig w_series = wide (2 + 3) num.
Proof. split; [gen|]. split; [gen|]. split; [exact w_is_concat|reflexivity]. Qed.
(** Two series that agree on their first [n] elements have the same first [n] outputs. *)
Theorem C03_shaped {N : FOps} op zx zo zs v w st n k l :
  well_shaped op zx zo zs -> leaves zx <> [] -> 0 < n -> n <= k -> n <= l ->
  genuine v -> sig v = wide k zx -> genuine w -> sig w = wide l zx -> state_shaped st zs ->
  (forall i, i < n -> row i v = row i w) ->
  exists o s s0 o' s', call op v st true = Ok (o, s, s0) /\ call op w st true = Ok (o', s', s0) /\
    forall i, i < n -> row i o = row i o'.
Proof. exact (shaped_causal op zx zo zs v w st n k l). Qed.
Print Assumptions C03_shaped.
Example C03_shaped_met : genuine w_head /\ sig w_head = wide 2 num /\ sig w_series = wide 5 num /\
  (forall i, i < 2 -> row i w_head = row i w_series) /\ w_head <> w_series.
Proof.
  split; [gen|]. split; [reflexivity|]. split; [reflexivity|]. split; [|discriminate].
  intros i Hi. symmetry. apply w_is_concat. exact Hi.
Qed.

(** ** C50: the initial state *)
(** Called without a state on any two inputs of the right shapes and dtypes, an operator starts from the same state. *)
Theorem C50_same_initial_state {N : FOps} op zx zo zs x y :
  well_shaped op zx zo zs -> genuine x -> sig x = zx -> genuine y -> sig y = zx ->
  exists s0 o s o' s', call op x None false = Ok (o, s, s0) /\ call op y None false = Ok (o', s', s0).
Proof. exact (shaped_initial op zx zo zs x y). Qed.
Print Assumptions C50_same_initial_state.
(** Also when streaming series of any lengths. *)
Theorem C50_same_initial_state_streamed {N : FOps} op zx zo zs v w n m :
  well_shaped op zx zo zs -> leaves zx <> [] -> n > 0 -> m > 0 ->
  genuine v -> sig v = wide n zx -> genuine w -> sig w = wide m zx ->
  exists s0 o s o' s', call op v None true = Ok (o, s, s0) /\ call op w None true = Ok (o', s', s0).
Proof. exact (shaped_initial_streamed op zx zo zs v w n m). Qed.
Print Assumptions C50_same_initial_state_streamed.
(** So the initial state got from one series, whatever its values, can be given for another. *)
Theorem C50_initial_state_of_another {N : FOps} op zx zo zs v w n m o s s0 :
  well_shaped op zx zo zs -> leaves zx <> [] -> n > 0 -> m > 0 ->
  genuine v -> sig v = wide n zx -> genuine w -> sig w = wide m zx ->
  call op v None true = Ok (o, s, s0) -> call op w (Some s0) true = call op w None true.
Proof. exact (shaped_initial_reused op zx zo zs v w n m o s s0). Qed.
Print Assumptions C50_initial_state_of_another.
Example C50_met : well_shaped f_op num num f_state /\ genuine w_series /\ genuine w_head /\
  sig w_series = wide 5 num /\ sig w_head = wide 2 num /\ genuine w_tail /\ sig w_tail = wide 3 num /\
  w_tail <> w_head.
Proof.
  split; [exact f_shaped|]. split; [gen|]. split; [gen|]. split; [reflexivity|]. split; [reflexivity|]. split; [gen|]. split; [reflexivity|].
  discriminate.
Qed.

(** ** C12 without any assumption on success *)
(** Map over [n] columns gives, in column [j], what the operator gives on the column [j], from no state or from row [j] of the state. *)
Theorem C12_shaped {N : FOps} op zx zo zs n T v st :
  well_shaped op zx zo zs -> n >= 1 -> leaves zx <> [] -> T > 0 ->
  genuine v -> sig v = wide T (wide n zx) -> state_shaped st (wide n zs) ->
  exists outs ns s, call (Map op n) v (option_map (fun s => Tup [s]) st) true = Ok (outs, Tup [ns], Tup [s]) /\
    genuine outs /\ sig outs = wide T (wide n zo) /\ genuine ns /\ sig ns = wide n zs /\ genuine s /\ sig s = wide n zs /\
    forall j w, j < n -> is_column T j v w -> exists out,
      call op w (option_map (row j) st) true = Ok (out, row j ns, row j s) /\ forall i, i < T -> row i out = row j (row i outs).
Proof. exact (shaped_map op zx zo zs n T v st). Qed.
Print Assumptions C12_shaped.
Example C12_shaped_met : well_shaped f_op num num f_state /\ genuine c_rows /\ sig c_rows = wide 3 (wide 2 num) /\
  is_column 3 0 c_rows c_left /\ is_column 3 1 c_rows c_right.
Proof. split; [exact f_shaped|]. split; [gen|]. split; [reflexivity|]. split; [exact c_is_left|exact c_is_right]. Qed.
