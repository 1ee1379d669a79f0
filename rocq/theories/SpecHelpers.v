(** * SpecHelpers: vocabulary for the properties of the helpers (C33, C42 to C47). *)
From Coq Require Import String List ZArith Bool.
From Verif Require Import Num Py PyFacts Tensor Streamable Common Spec Formulas.
Import ListNotations.

(** A position in a nested structure: indices into lists and tuples, keys into dicts. *)
Inductive key := At (i : nat) | Key (k : string).
Fixpoint lookup {A} (p : list key) (v : pyval A) : option A :=
  match p, v with
  | [], Leaf a => Some a
  | At i :: p', Tup l | At i :: p', Lst l =>
      match nth_error l i with Some w => lookup p' w | None => None end
  | Key k :: p', Dct l =>
      match assoc k l with Some w => lookup p' w | None => None end
  | _, _ => None
  end.
(** The positions of the leaves, from left to right. *)
Fixpoint positions {A} (v : pyval A) : list (list key) :=
  match v with
  | Leaf _ => [[]]
  | Tup l | Lst l =>
      (fix go (i : nat) (l : list (pyval A)) : list (list key) :=
         match l with [] => [] | x :: r => map (cons (At i)) (positions x) ++ go (S i) r end) 0 l
  | Dct l =>
      (fix go (l : list (string * pyval A)) : list (list key) :=
         match l with [] => [] | (k, x) :: r => map (cons (Key k)) (positions x) ++ go r end) l
  | Gen _ => []
  end.

Section SpecHelpers.
Context {N : FOps}.
(** The elements of a float tensor. *)
Definition elements (t : tensor) : list F := match dat t with DF l => l | _ => [] end.
Definition all_floats (v : val) : Prop := Forall (fun t => dtype_of t = F32) (leaves v).

(** The maximal runs of elements satisfying [up]: [runs_of up l gs] says that [l] is made of the
    runs [gs], in this order, separated (and possibly preceded and followed) by other elements. *)
Inductive runs_of {A} (up : A -> bool) : list A -> list (list A) -> Prop :=
| runs_none zs : Forall (fun x => up x = false) zs -> runs_of up zs []
| runs_one zs g rest gs :
    Forall (fun x => up x = false) zs -> g <> [] -> Forall (fun x => up x = true) g ->
    match rest with [] => True | x :: _ => up x = false end ->
    runs_of up rest gs -> runs_of up (zs ++ g ++ rest) (g :: gs).

(** A position of a drawdown series, with its under-water count, is under water. *)
Definition under (x : F * Z) : bool := (0 <? snd x)%Z.

(** ** The automaton *)
(** The first transition of the table that leaves [q] and whose guard holds. *)
Inductive fires (ins : list val) (q : Z) : list transition -> transition -> Prop :=
| fires_here t ts : tr_from t = q -> tr_guard t ins = Ok (bsc true) -> fires ins q (t :: ts) t
| fires_later t ts t' :
    (tr_from t <> q \/ tr_guard t ins = Ok (bsc false)) -> fires ins q ts t' -> fires ins q (t :: ts) t'.
Definition stuck (ins : list val) (q : Z) (ts : list transition) : Prop :=
  Forall (fun t => tr_from t <> q \/ tr_guard t ins = Ok (bsc false)) ts.
(** One move: the first enabled transition, or the default. *)
Definition moves (ts : list transition) (default : list val -> res val) (ins : list val) (q : Z) (o : val) (q' : Z) : Prop :=
  (exists t, fires ins q ts t /\ tr_action t ins = Ok o /\ q' = tr_to t) \/
  (stuck ins q ts /\ default ins = Ok o /\ q' = q).
(** The inputs of a position, as a tuple or a list. *)
Definition inputs_are (x : val) (ins : list val) : Prop := x = Tup ins \/ x = Lst ins.
Inductive walk (ts : list transition) (default : list val -> res val) : Z -> list val -> list val -> Z -> Prop :=
| walk_nil q : walk ts default q [] [] q
| walk_cons q x xs ins o os q1 q2 :
    inputs_are x ins -> moves ts default ins q o q1 -> walk ts default q1 xs os q2 ->
    walk ts default q (x :: xs) (o :: os) q2.
(** Every guard and every action can be computed on [ins], with outputs of the dtypes [z]. *)
Definition decided (ts : list transition) (default : list val -> res val) (ins : list val) (z : pyval dtype) : Prop :=
  (exists d, default ins = Ok d /\ vmap dtype_of d = z) /\
  Forall (fun t => (exists b, tr_guard t ins = Ok (bsc b)) /\ exists a, tr_action t ins = Ok a /\ vmap dtype_of a = z) ts.

(** The same, with outputs of the structure, shapes and dtypes [z]. *)
Definition decided_alike (ts : list transition) (default : list val -> res val) (ins : list val) (z : pyval (list nat * dtype)) : Prop :=
  (exists d, default ins = Ok d /\ sig d = z) /\
  Forall (fun t => (exists b, tr_guard t ins = Ok (bsc b)) /\ exists a, tr_action t ins = Ok a /\ sig a = z) ts.

(** ** Stateless operators *)
(** The arguments a function receives: the elements of a tuple or list, or the value itself. *)
Definition arguments (x : val) : list val := match x with Tup l | Lst l => l | _ => [x] end.
(** Python's [values[i]]: negative indices count from the end. *)
Definition at_index (values : list val) (i : Z) (v : val) : Prop :=
  ((0 <= i)%Z /\ nth_error values (Z.to_nat i) = Some v) \/
  ((i < 0)%Z /\ (- i <= Z.of_nat (length values))%Z /\ nth_error values (length values - Z.to_nat (- i)) = Some v).
Definition no_state (st : option val) : Prop := st = None \/ st = Some (Tup []).

(** ** 32-bit counters *)
(** After [n] earlier elements the counter is again in the warm-up of a window of [p]: *)
Definition warming_up (p : nat) (n : Z) : bool :=
  let k := (n mod 4294967296)%Z in (k <? Z.of_nat p - 1)%Z || (2147483648 <=? k)%Z.
(** The simple moving average of a history of any length, newest element first. *)
Definition sma_forever (p : nat) (h : list F) : F :=
  if warming_up p (Z.of_nat (length h) - 1) then f0 else fdiv (fsum (firstn p h)) (f_of_Z (Z.of_nat p)).
(** The averages seeded by the simple average take the next element for a seed as long as their counter
    is below [p], which happens again once it has wrapped around.  The seeds of a history: *)
Definition seeding (p : nat) (n : Z) : bool := warming_up (S p) n.
Fixpoint seeds {A} (p : nat) (h : list A) : list A :=
  match h with
  | [] => []
  | x :: r => if seeding p (Z.of_nat (length r)) then x :: seeds p r else seeds p r
  end.
Fixpoint ema_forever (p : nat) (h : list F) : F :=
  match h with
  | [] => f0
  | x :: r =>
      if seeding p (Z.of_nat (length r)) then sma_forever p (seeds p h)
      else fadd (fmul x (f_of_D (ema_factor p)))
                (fmul (ema_forever p r) (f_of_D (dsub (d_of_Z 1) (ema_factor p))))
  end.
Fixpoint rma_forever (p : nat) (h : list F) : F :=
  match h with
  | [] => f0
  | x :: r =>
      if seeding p (Z.of_nat (length r)) then sma_forever p (seeds p h)
      else fdiv (fadd (fmul (rma_forever p r) (f_of_Z (Z.of_nat p - 1))) x) (f_of_Z (Z.of_nat p))
  end.
(** The moving standard deviation of a history of any length. *)
Definition msd_forever (p : nat) (h : list F) : F :=
  if warming_up p (Z.of_nat (length h) - 1) then f0 else fsqrt (fvar (firstn p h)).
End SpecHelpers.
