(** * PropsAlgebra: property C54 — laws of Compose, Join, Map and FFill.  Vocabulary: Algebra.v and Shapes.v.

    [agree a b zx]: over every series of elements of the shapes and dtypes [zx], streaming [a] and streaming [b] both
    succeed and give the same outputs (their states may be nested differently).
    [vectorised op n zx]: Map over [n] columns gives what streaming over the [n] columns at once gives. *)
From Coq Require Import List ZArith Bool Lia.
From Verif Require Import Num Py PyFacts Tensor Streamable Meta Common Finance Library Spec SpecMeta B32 Shapes ShapeProofs ShapeStream ShapeMain
  Algebra AlgebraFacts VectorFacts Witness.
Import ListNotations.

(** ** Using equivalent operators for one another *)
(** In a pipeline, on the elements that reach the operator. *)
Theorem C54_compose_congruence {N : FOps} a b zx zo before after :
  fit_in_turn (before ++ a :: after) zx zo -> fit_in_turn (before ++ b :: after) zx zo ->
  (forall zm, (before = [] -> zm = zx) -> (before <> [] -> fit_in_turn before zx zm) -> agree a b zm) ->
  agree (Compose (rev (before ++ a :: after))) (Compose (rev (before ++ b :: after))) zx.
Proof. exact (agree_compose a b zx zo before after). Qed.
Print Assumptions C54_compose_congruence.
Theorem C54_join_congruence {N : FOps} az bz zxs zos zos' : fit_each az zxs zos -> fit_each bz zxs zos' -> az <> [] ->
  agree_each az bz zxs -> agree (Join az) (Join bz) (Tup zxs).
Proof. exact (agree_join az bz zxs zos zos'). Qed.
Print Assumptions C54_join_congruence.
Theorem C54_map_congruence {N : FOps} a b n zx zo zo' : agree a b zx -> fits a zx zo -> fits b zx zo' -> n >= 1 ->
  agree (Map a n) (Map b n) (wide n zx).
Proof. exact (agree_map a b n zx zo zo'). Qed.
Print Assumptions C54_map_congruence.
Theorem C54_ffill_congruence {N : FOps} a b zx zo : agree a b zx -> fills a zx zo -> fills b zx zo -> agree (FFill a) (FFill b) zx.
Proof. exact (agree_ffill a b zx zo). Qed.
Print Assumptions C54_ffill_congruence.

(** ** Pipelines *)
Theorem C54_compose_one {N : FOps} op zx zo : fits op zx zo -> agree (Compose [op]) op zx.
Proof. exact (compose_one op zx zo). Qed.
Print Assumptions C54_compose_one.
Theorem C54_compose_flat {N : FOps} a b zx zm zo : fit_in_turn a zx zm -> fit_in_turn b zm zo ->
  agree (Compose [Compose (rev b); Compose (rev a)]) (Compose (rev b ++ rev a)) zx.
Proof. exact (compose_flat a b zx zm zo). Qed.
Print Assumptions C54_compose_flat.
Theorem C54_identity {N : FOps} op zx zo s d :
  (fits op (Leaf (s, d)) zo -> agree (Compose [op; Identity]) op (Leaf (s, d))) /\
  (fits op zx (Leaf (s, d)) -> agree (Compose [Identity; op]) op zx).
Proof. exact (conj (identity_before op s d zo) (identity_after op zx s d)). Qed.
Print Assumptions C54_identity.
(** Two delays make one. *)
Theorem C54_lag_lag {N : FOps} d s p q : p >= 1 -> q >= 1 ->
  agree (Compose [Lag (Z.of_nat p); Lag (Z.of_nat q)]) (Lag (Z.of_nat (p + q))) (Leaf (s, d)).
Proof. exact (lag_lag d s p q). Qed.
Print Assumptions C54_lag_lag.

(** ** Join *)
(** [l] lists, for every branch, the first and the second operator. *)
Theorem C54_join_of_pipelines {N : FOps} l zxs zms zos : fit_each (map fst l) zxs zms -> fit_each (map snd l) zms zos -> l <> [] ->
  agree (Join (map (fun fg => Compose [snd fg; fst fg]) l)) (Compose [Join (map snd l); Join (map fst l)]) (Tup zxs).
Proof. exact (join_compose l zxs zms zos). Qed.
Print Assumptions C54_join_of_pipelines.
Theorem C54_select_join {N : FOps} ops zxs zos j op zo : fit_each ops zxs zos -> nth_error ops j = Some op ->
  nth_error zos j = Some zo -> leaves zo <> [] ->
  agree (Compose [Select (IdxOne (Z.of_nat j)); Join ops]) (Compose [op; Select (IdxOne (Z.of_nat j))]) (Tup zxs).
Proof. exact (select_join ops zxs zos j op zo). Qed.
Print Assumptions C54_select_join.
(** The same tensor given to several operators, and one of the outputs taken. *)
Theorem C54_fan_out {N : FOps} ops s d zos j op zo : fit_each ops (repeat (Leaf (s, d)) (length ops)) zos ->
  nth_error ops j = Some op -> nth_error zos j = Some zo -> leaves zo <> [] ->
  agree (Compose [Select (IdxOne (Z.of_nat j)); Join ops; Fork (length ops)]) op (Leaf (s, d)).
Proof. exact (fan_out ops s d zos j op zo). Qed.
Print Assumptions C54_fan_out.

(** ** Map *)
Theorem C54_map_compose {N : FOps} ops n zx zo : fit_in_turn ops zx zo -> n >= 1 ->
  agree (Map (Compose (rev ops)) n) (Compose (map (fun op => Map op n) (rev ops))) (wide n zx).
Proof. exact (map_compose ops n zx zo). Qed.
Print Assumptions C54_map_compose.
Theorem C54_map_join {N : FOps} ops n zxs zos : fit_each ops zxs zos -> ops <> [] -> n >= 1 ->
  agree (Map (Join ops) n) (Join (map (fun op => Map op n) ops)) (Tup (map (wide n) zxs)).
Proof. exact (map_join ops n zxs zos). Qed.
Print Assumptions C54_map_join.
(** Operators that work element by element do not need Map. *)
Theorem C54_vectorised_averages {N : FOps} n s p : n >= 1 -> p >= 1 ->
  vectorised (Lag (Z.of_nat p)) n (tf s) /\ vectorised (SimpleMovingAverage (Z.of_nat p)) n (tf s) /\
  vectorised (ExponentialMovingAverage (Z.of_nat p)) n (tf s) /\ vectorised (RollingMovingAverage (Z.of_nat p)) n (tf s) /\
  vectorised (MovingStandardDeviation (Z.of_nat p)) n (tf s) /\ vectorised (Momentum (Z.of_nat p)) n (tf s) /\
  (forall k, vectorised (BollingerBands (Z.of_nat p) k) n (tf s)).
Proof. exact (vectorised_averages n s p). Qed.
Print Assumptions C54_vectorised_averages.
Theorem C54_vectorised_pipelines {N : FOps} n s p q m : n >= 1 -> p >= 1 -> q >= 1 -> m >= 1 ->
  vectorised (SimpleMovingAverageCrossover (Z.of_nat p) (Z.of_nat q)) n (tf s) /\
  vectorised (SimpleMovingAverageCrossoverSignal (Z.of_nat p) (Z.of_nat q)) n (tf s) /\
  vectorised (MovingAverageConvergenceDivergence (Z.of_nat p) (Z.of_nat q) (Z.of_nat m)) n (tf s) /\
  vectorised (MovingAverageConvergenceDivergenceSignal (Z.of_nat p) (Z.of_nat q) (Z.of_nat m)) n (tf s) /\
  vectorised ZeroCrossoverSignal n (tf s) /\
  vectorised (Correlation (Z.of_nat p)) n (Tup [tf s; tf s]) /\
  vectorised (CrossCorrelation (Z.of_nat p) (Z.of_nat q)) n (Tup [tf s; tf s]) /\
  vectorised (AutoCorrelation (Z.of_nat p) (Z.of_nat q)) n (tf s).
Proof. exact (vectorised_pipelines n s p q m). Qed.
Print Assumptions C54_vectorised_pipelines.
(** Nor do pipelines of such operators. *)
Theorem C54_vectorised_compose {N : FOps} n ops zx zo : n >= 1 -> vectorised_in_turn n ops zx zo -> vectorised (Compose (rev ops)) n zx.
Proof. exact (vectorised_compose n ops zx zo). Qed.
Print Assumptions C54_vectorised_compose.

(** ** FFill *)
(** Without missing rows FFill changes nothing. *)
Theorem C54_ffill_nothing {N : FOps} op zx zo n v : fills op zx zo -> n > 0 -> genuine v -> sig v = wide n zx ->
  (forall i, i < n -> missing (row i v) = false) -> exists o, gives (FFill op) v o /\ gives op v o.
Proof. exact (ffill_nothing op zx zo n v). Qed.
Print Assumptions C54_ffill_nothing.
(** FFill does need Map: a row is missing as soon as one of its columns is. *)
Definition gap : val := mser 2 [[1; 1]; [2; 0]]%Z.
Definition gap_map : out3 := Eval vm_compute in ok3 (call (Map (FFill (SimpleMovingAverage 1)) 2) gap None true).
Definition gap_all : out3 := Eval vm_compute in ok3 (call (FFill (SimpleMovingAverage 1)) gap None true).
Lemma gap_map_call : call (Map (FFill (SimpleMovingAverage 1)) 2) gap None true = Ok (fst (fst gap_map), snd (fst gap_map), snd gap_map).
Proof. vm_cast_no_check (@eq_refl (res out3) (Ok (fst (fst gap_map), snd (fst gap_map), snd gap_map))). Qed.
Lemma gap_all_call : call (FFill (SimpleMovingAverage 1)) gap None true = Ok (fst (fst gap_all), snd (fst gap_all), snd gap_all).
Proof. vm_cast_no_check (@eq_refl (res out3) (Ok (fst (fst gap_all), snd (fst gap_all), snd gap_all))). Qed.
Theorem C54_ffill_vectorised_refuted : ~ vectorised (FFill (SimpleMovingAverage 1)) 2 num.
Proof.
  intros H. destruct (H 2 gap) as (o & (s & i & A) & (s' & i' & B)); [lia|cbn; lia|gen|reflexivity|].
  assert (A' := eq_trans (eq_sym A) gap_map_call). assert (B' := eq_trans (eq_sym B) gap_all_call).
  injection A' as E1 _ _. injection B' as E2 _ _. rewrite E1 in E2. discriminate E2.
Qed.
Print Assumptions C54_ffill_vectorised_refuted.

(** ** Cases that meet the hypotheses *)
Example C54_met {N : FOps} : 
  fit_in_turn [SimpleMovingAverage 3; Lag 2; BollingerBands 4 (PyInt 2)] (tf [2]) (Tup [tf [2]; tf [2]; tf [2]]) /\
  fit_each [SimpleMovingAverage 3; Return 1] [tf [2]; num] [tf [2]; num] /\
  fit_each [ExponentialMovingAverage 3; Return 1] (repeat num 2) [num; num] /\
  agree (Compose [Lag 2; Lag 3]) (Lag 5) num /\
  fills (SimpleMovingAverage 3) num num /\
  vectorised_in_turn 2 [SimpleMovingAverage 3; ExponentialMovingAverage 2] num num.
Proof.
  assert (S1 : forall p s, (1 <= p)%Z -> fits (SimpleMovingAverage p) (tf s) (tf s)) by (intros; eapply fits_takes; [now apply tk_sma|discriminate|reflexivity]).
  assert (S2 : forall p s, (1 <= p)%Z -> fits (ExponentialMovingAverage p) (tf s) (tf s)) by (intros; eapply fits_takes; [now apply tk_ema|discriminate|reflexivity]).
  assert (S3 : fits (Return 1) num num) by (eapply fits_takes; [apply tk_return; lia|discriminate|reflexivity]).
  split; [|split; [|split; [|split; [|split]]]].
  - eapply fit_next; [apply S1; lia|]. eapply fit_next; [eapply fits_takes; [apply tk_lag; lia|discriminate|reflexivity]|]. apply fit_last.
    eapply fits_takes; [apply tk_bollinger; lia|discriminate|reflexivity].
  - apply fit_more; [apply S1; lia|]. apply fit_more; [exact S3|constructor].
  - cbn [repeat]. apply fit_more; [apply S2; lia|]. apply fit_more; [exact S3|constructor].
  - exact (lag_lag F32 [] 2 3 ltac:(lia) ltac:(lia)).
  - split; [discriminate|]. split; [repeat constructor|]. split; [split; [intros []|exact I]|]. eexists. split; [eapply ws_step; [apply tk_sma; lia|reflexivity]|].
    left. split; [intros []|exact I].
  - apply (vec_next 2 _ _ num num num); [apply S1; lia|apply (S1 3%Z [2]); lia|exact (proj1 (proj2 (vectorised_averages 2 [] 3 ltac:(lia) ltac:(lia))))|].
    apply vec_last; [apply S2; lia|apply (S2 2%Z [2]); lia|exact (proj1 (proj2 (proj2 (vectorised_averages 2 [] 2 ltac:(lia) ltac:(lia)))))].
Qed.
