(** * PropsMap: property C12 — Map streams every column on its own.
    Vocabulary: SpecMeta.v and Structure.v. *)
From Coq Require Import List ZArith Bool Lia.
From Verif Require Import Num Py PyFacts Tensor Streamable Spec SpecMeta Meta Common Finance Library
  GenuineBase GenuineLib InitLib MapFacts Structure StructLib StructProofs Witness WitnessFill.
Import ListNotations.

(** [typed op zx zo zs] (Structure.v) gives the structure of the outputs and states of every operator of the
    library.  First the theorems for these, then those for any other operator, whose structures must not change. *)
(** From given states: column [j] is the stream of [op] over the column [j] of the series, from the [j]-th row
    of the state; the final state holds the final state of every column. *)
Theorem C12_columns {N : FOps} op n T m v s outs sf s0 zo :
  typed op (sk v) zo (sk s) -> genuine v -> genuine s -> has_columns T m v -> m > 0 ->
  call (Map op n) v (Some (Tup [s])) true = Ok (outs, sf, s0) ->
  s0 = Tup [s] /\ exists ns, sf = Tup [ns] /\
    forall j w, j < m -> is_column T j v w -> exists out,
      call op w (Some (row j s)) true = Ok (out, row j ns, row j s) /\
      forall i, i < T -> row i out = row j (row i outs).
Proof. exact (structured_map op n T m v s outs sf s0 zo). Qed.
Print Assumptions C12_columns.
(** Without a state: column [j] is the stream of [op] without a state over the column [j].  It is used with
    an operator whose initial state [i0] is the same in every column. *)
Theorem C12_columns_fresh {N : FOps} op n T m v outs sf s0 zo zs i0 :
  typed op (sk v) zo zs -> genuine v -> has_columns T m v -> m > 0 ->
  (forall j, j < m -> exists o t, call op (row j (row 0 v)) None false = Ok (o, t, i0)) ->
  call (Map op n) v None true = Ok (outs, sf, s0) ->
  (leaves i0 <> [] -> m = n) /\
  exists s ns, s0 = Tup [s] /\ sf = Tup [ns] /\ forall j w, j < m -> row j s = i0 /\
    (is_column T j v w -> exists out, call op w None true = Ok (out, row j ns, i0) /\
       forall i, i < T -> row i out = row j (row i outs)).
Proof. exact (structured_map_fresh op n T m v outs sf s0 zo zs i0). Qed.
Print Assumptions C12_columns_fresh.
(** The same for any operator. *)
Theorem C12_columns_any {N : FOps} op n T m v s outs sf s0 z :
  genuine v -> genuine s -> genuine_op op -> has_columns T m v -> m > 0 ->
  keeps_structure op (sk s) z (elements T m v) ->
  (forall i o t i', i < T -> call op (row 0 (row i v)) None false = Ok (o, t, i') -> sk o = z) ->
  call (Map op n) v (Some (Tup [s])) true = Ok (outs, sf, s0) ->
  s0 = Tup [s] /\ exists ns, sf = Tup [ns] /\
    forall j w, j < m -> is_column T j v w -> exists out,
      call op w (Some (row j s)) true = Ok (out, row j ns, row j s) /\
      forall i, i < T -> row i out = row j (row i outs).
Proof. exact (map_columns op n T m v s outs sf s0 z). Qed.
Print Assumptions C12_columns_any.
Theorem C12_columns_fresh_any {N : FOps} op n T m v outs sf s0 z i0 :
  genuine v -> genuine_op op -> has_columns T m v -> m > 0 ->
  (forall j, j < m -> init_consistent op (row j (row 0 v)) /\ exists o t, call op (row j (row 0 v)) None false = Ok (o, t, i0)) ->
  keeps_structure op (sk i0) z (elements T m v) ->
  (forall i o t i', i < T -> call op (row 0 (row i v)) None false = Ok (o, t, i') -> sk o = z) ->
  call (Map op n) v None true = Ok (outs, sf, s0) ->
  (leaves i0 <> [] -> m = n) /\
  exists s ns, s0 = Tup [s] /\ sf = Tup [ns] /\ forall j w, j < m -> row j s = i0 /\
    (is_column T j v w -> exists out, call op w None true = Ok (out, row j ns, i0) /\ forall i, i < T -> row i out = row j (row i outs)).
Proof. exact (map_columns_fresh op n T m v outs sf s0 z i0). Qed.
Print Assumptions C12_columns_fresh_any.
(** The columns exist. *)
Theorem C12_columns_exist {N : FOps} T m v j :
  genuine v -> has_columns T m v -> T > 0 -> j < m -> exists w, is_column T j v w.
Proof. exact (column_exists T m v j). Qed.
Print Assumptions C12_columns_exist.
(** Conversely, Map streams when every column streams, with elements of one shape and dtype. *)
Theorem C12_total {N : FOps} op n T m v s z :
  genuine v -> genuine s -> genuine_op op -> has_columns T m v -> T > 0 -> m > 0 -> m_tall m s ->
  keeps_structure op (sk s) (sk z) (elements T m v) ->
  (forall i, i < T -> exists o t i', call op (row 0 (row i v)) None false = Ok (o, t, i') /\ sig o = z) ->
  (forall j, j < m -> exists w out sf, is_column T j v w /\ call op w (Some (row j s)) true = Ok (out, sf, row j s) /\
     forall i, i < T -> sig (row i out) = z) ->
  exists outs sf, call (Map op n) v (Some (Tup [s])) true = Ok (outs, sf, Tup [s]).
Proof. exact (map_total op n T m v s z). Qed.
Print Assumptions C12_total.
(** With a stateful operator, a number of columns other than [n] is an error, streamed or not. *)
Theorem C12_wrong_size {N : FOps} op n T m v o t i0 :
  genuine v -> genuine_op op -> has_columns T m v -> T > 0 -> m > 0 ->
  call op (row 0 (row 0 v)) None false = Ok (o, t, i0) -> leaves i0 <> [] -> m <> n ->
  call (Map op n) v None true = Err ESizes /\ call (Map op n) (row 0 v) None false = Err ESizes.
Proof. exact (map_wrong_size op n T m v o t i0). Qed.
Print Assumptions C12_wrong_size.
(** A state for another number of columns is an error. *)
Theorem C12_wrong_state {N : FOps} op n T m v s k o t i0 :
  genuine v -> genuine s -> genuine_op op -> has_columns T m v -> T > 0 -> m > 0 ->
  call op (row 0 (row 0 v)) None false = Ok (o, t, i0) -> is_series k s -> k <> m ->
  call (Map op n) v (Some (Tup [s])) true = Err ESizes /\ call (Map op n) (row 0 v) (Some (Tup [s])) false = Err ESizes.
Proof. exact (map_wrong_state op n T m v s k o t i0). Qed.
Print Assumptions C12_wrong_state.
Example C12_met : genuine c_rows /\ has_columns 3 2 c_rows /\ typed c_op (sk c_rows) one (sk c_state) /\ genuine c_state /\
  (exists r, call (Map c_op 2) c_rows (Some (Tup [c_state])) true = Ok r) /\
  (exists r, call (Map c_op 2) c_rows None true = Ok r) /\
  is_column 3 0 c_rows c_left /\ is_column 3 1 c_rows c_right /\
  (forall j, j < 2 -> exists o t, call c_op (row j (row 0 c_rows)) None false = Ok (o, t, snd c_first)) /\
  leaves (snd c_first) <> [] /\ keeps_structure c_op (sk c_state) one (SpecMeta.elements 3 2 c_rows).
Proof.
  split; [gen|]. split; [exact c_columns|]. split; [now apply c_typed|]. split; [gen|].
  split; [eexists; exact c_call2|]. split; [eexists; exact c_call|].
  split; [exact c_is_left|]. split; [exact c_is_right|]. split.
  { intros [|[|j]] Hj; [do 2 eexists; exact c_first0|do 2 eexists; exact c_first1|lia]. }
  split; [discriminate|]. eapply typed_keeps; [now apply (c_typed c_rows)|].
  apply elements_sk; [gen|exact c_columns].
Qed.
(** [C12_total] on the same case: both columns stream. *)
Example C12_total_met : m_tall 2 c_state /\
  (forall i, i < 3 -> exists o t i', call c_op (row 0 (row i c_rows)) None false = Ok (o, t, i') /\ sig o = sig (Leaf (fsc f0))) /\
  (forall j, j < 2 -> exists w out sf, is_column 3 j c_rows w /\ call c_op w (Some (row j c_state)) true = Ok (out, sf, row j c_state) /\
     forall i, i < 3 -> sig (row i out) = sig (Leaf (fsc f0))).
Proof.
  split; [repeat constructor; eexists; reflexivity|]. split.
  - intros [|[|[|i]]] Hi; [do 3 eexists; split; reflexivity..|lia].
  - intros [|[|j]] Hj; [| |lia].
    + exists c_left, (fst (fst c_col0)), (snd (fst c_col0)). split; [exact c_is_left|]. split; [exact c_col0_call|]. intros [|[|[|i]]] Hi; [reflexivity..|lia].
    + exists c_right, (fst (fst c_col1)), (snd (fst c_col1)). split; [exact c_is_right|]. split; [exact c_col1_call|]. intros [|[|[|i]]] Hi; [reflexivity..|lia].
Qed.
