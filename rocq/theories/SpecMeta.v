(** * SpecMeta: vocabulary for the properties of Compose, Join, Map and FFill. *)
From Coq Require Import String List ZArith Bool.
From Verif Require Import Num Py PyFacts Tensor Streamable Spec.
Import ListNotations.

Section SpecMeta.
Context {N : FOps}.

(** The states given to [k] operators: none at all, or one each. *)
Definition states_for (k : nat) (sts : option (list val)) : list (option val) :=
  match sts with None => repeat None k | Some ss => map Some ss end.
Definition tuple_state (sts : option (list val)) : option val := option_map Tup sts.
Definition given_states (k : nat) (sts : option (list val)) : Prop :=
  match sts with None => True | Some ss => length ss = k /\ Forall genuine ss end.
(** The state of the first operator, and those of the others. *)
Definition hd_st (sts : option (list val)) : option val :=
  match sts with Some (s :: _) => Some s | _ => None end.
Definition tl_st (sts : option (list val)) : option (list val) := option_map (@tl val) sts.

(** Every operator is called on its own input with its own state. *)
Inductive called_each (streamable : bool) : list operator -> list val -> list (option val) ->
    list val -> list val -> list val -> Prop :=
| each_nil : called_each streamable [] [] [] [] [] []
| each_cons op ops v vs st sts o os s ss i is :
    call op v st streamable = Ok (o, s, i) ->
    called_each streamable ops vs sts os ss is ->
    called_each streamable (op :: ops) (v :: vs) (st :: sts) (o :: os) (s :: ss) (i :: is).

(** Every operator is streamed over the output series of the one before it. *)
Inductive called_in_turn (streamable : bool) : list operator -> val -> list (option val) ->
    val -> list val -> list val -> Prop :=
| turn_last op v st o s i :
    call op v st streamable = Ok (o, s, i) -> called_in_turn streamable [op] v [st] o [s] [i]
| turn_next op ops v mid st sts o s ss i is :
    call op v st streamable = Ok (mid, s, i) ->
    called_in_turn streamable ops mid sts o ss is ->
    called_in_turn streamable (op :: ops) v (st :: sts) o (s :: ss) (i :: is).
(** The same with the loop of single calls in place of the streamed call. *)
Inductive stepped_in_turn : list operator -> list val -> list val -> list val -> list val -> Prop :=
| stepped_last op s xs os sf :
    steps op s xs = Ok (os, sf) -> stepped_in_turn [op] [s] xs os [sf]
| stepped_next op ops s ss xs ms os sf sfs :
    steps op s xs = Ok (ms, sf) ->
    stepped_in_turn ops ss ms os sfs ->
    stepped_in_turn (op :: ops) (s :: ss) xs os (sf :: sfs).

(** What streaming needs of a stage: its outputs along the series have one structure (the loop
    body is traced once), it has outputs, and the initial state it reports is its default (C04). *)
Definition good_stage (n : nat) (op : operator) (st : option val) (v mid : val) : Prop :=
  is_series n v /\ uniform sk op st v n /\ leaves mid <> [] /\
  (st = None -> forall o s' s0, call op (row 0 v) None false = Ok (o, s', s0) ->
     call op (row 0 v) (Some s0) false = Ok (o, s', s0)).
Inductive streamed_in_turn (n : nat) : list operator -> val -> list (option val) ->
    val -> list val -> list val -> Prop :=
| streamed_last op v st o s i :
    is_series n v -> call op v st true = Ok (o, s, i) -> streamed_in_turn n [op] v [st] o [s] [i]
| streamed_next op ops v mid st sts o s ss i is :
    call op v st true = Ok (mid, s, i) -> good_stage n op st v mid ->
    streamed_in_turn n ops mid sts o ss is ->
    streamed_in_turn n (op :: ops) v (st :: sts) o (s :: ss) (i :: is).

(** The states of three groups of operators, flat and with the middle group in a tuple of its own. *)
Definition triple : Type := (list val * list val * list val)%type.
Definition flat (p : triple) : val := let '(c, b, a) := p in Tup (c ++ b ++ a).
Definition nest (p : triple) : val := let '(c, b, a) := p in Tup (c ++ Tup b :: a).
(** As many genuine states as there are operators in each group. *)
Definition Gtriple (C B A : list operator) (p : triple) : Prop :=
  let '(c, b, a) := p in
  (length c = length C /\ Forall genuine c) /\ (length b = length B /\ Forall genuine b) /\
  (length a = length A /\ Forall genuine a).
Definition Gopt {P} (G : P -> Prop) (q : option P) : Prop := match q with Some p => G p | None => True end.

(** A row is missing when some number in it is 0. *)
Definition missing (x : val) : bool :=
  existsb (fun t => match dat t with DF l => existsb (fun y => feq y f0) l | _ => false end) (leaves x).
Definition present (xs : list val) : list val := filter (fun x => negb (missing x)) xs.
(** A value all of whose elements are 0. *)
Definition all_zero (v : val) : Prop :=
  Forall (fun t => match dat t with
                   | DF l => Forall (eq f0) l
                   | DI l => Forall (eq 0%Z) l
                   | DB l => Forall (eq false) l
                   end) (leaves v).
(** A tuple or list of one element. *)
Definition boxed {A} (v : pyval A) : Prop := match v with Tup [_] | Lst [_] => True | _ => False end.
(** Called on elements of [xs] from states of the structure [zs], [op] leaves states of this structure and
    gives outputs of the structure [z]. *)
Definition keeps_structure (op : operator) (zs z : pyval unit) (xs : list val) : Prop :=
  forall x s o s' i, In x xs -> genuine s -> sk s = zs ->
    call op x (Some s) false = Ok (o, s', i) -> sk s' = zs /\ sk o = z.
(** Called on elements of [xs] from states of the structure, shapes and dtypes of [s0], [op] succeeds, leaves
    such states and gives outputs of the structure, shapes and dtypes [z]; the initial state it reports is ()
    only when its states are. *)
Definition accepts (op : operator) (s0 : val) (z : pyval (list nat * dtype)) (xs : list val) : Prop :=
  forall x s, In x xs -> genuine s -> sig s = sig s0 ->
    exists o s' i, call op x (Some s) false = Ok (o, s', i) /\ sig o = z /\ sig s' = sig s0 /\ (i = Tup [] <-> s0 = Tup []).
(** Not () or []. *)
Definition holds_something {A} (v : pyval A) : Prop := match v with Tup [] | Lst [] => False | _ => True end.

(** [v] is a series of [T] elements, each of them holding [m] columns. *)
Definition has_columns (T m : nat) (v : val) : Prop := is_series T v /\ is_series m (row 0 v).
(** [w] is the series of the [j]-th columns of the [T] elements of [v]. *)
Definition is_column (T j : nat) (v w : val) : Prop :=
  genuine w /\ is_series T w /\ forall i, i < T -> row i w = row j (row i v).
(** All the elements: columns of rows. *)
Definition elements (T m : nat) (v : val) : list val := flat_map (rows m) (rows T v).
(** Every tensor in [v] has [m] as its first dimension. *)
Definition m_tall (m : nat) (v : val) : Prop := Forall (fun t => exists s, sh t = m :: s) (leaves v).
End SpecMeta.
