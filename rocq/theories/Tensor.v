(** * Tensor: the TensorFlow 1.13.1 operations the repository uses.

    This file is the (trusted) reading of TensorFlow: tensors with statically
    known shapes, evaluated eagerly.  Each operation cites the places of /repo
    that use it. *)
From Coq Require Import List ZArith Bool.
From Verif Require Import Num Py.
Import ListNotations.

Inductive dtype := F32 | I32 | BOOL.
Definition dtype_eqb (a b : dtype) : bool :=
  match a, b with F32, F32 | I32, I32 | BOOL, BOOL => true | _, _ => false end.

Definition prod (s : list nat) : nat := fold_right Nat.mul 1 s.
Fixpoint shape_eqb (a b : list nat) : bool :=
  match a, b with
  | [], [] => true
  | x :: a', y :: b' => Nat.eqb x y && shape_eqb a' b'
  | _, _ => false
  end.

Section Tensor.
Context {N : FOps}.

(** Row-major data.  float64, int64 and strings are not modelled: an operation
    that would produce them is an error. *)
Inductive tdata := DF (l : list F) | DI (l : list Z) | DB (l : list bool).
Record tensor := mkT { sh : list nat; dat : tdata }.

Definition dtype_of (t : tensor) : dtype :=
  match dat t with DF _ => F32 | DI _ => I32 | DB _ => BOOL end.

Definition dlen (d : tdata) : nat :=
  match d with DF l => length l | DI l => length l | DB l => length l end.
(** Well-formed: as many elements as the shape says.  TensorFlow tensors always
    are. *)
Definition wf (t : tensor) : Prop := dlen (dat t) = prod (sh t).

(** Scalars (Python literals and tf.constant). *)
Definition fsc (x : F) : tensor := mkT [] (DF [x]).
Definition isc (z : Z) : tensor := mkT [] (DI [z]).
Definition bsc (b : bool) : tensor := mkT [] (DB [b]).

(** A Python int / float meeting a tensor in a binary operator is converted to
    the dtype of that tensor. *)
Definition pyint_like (t : tensor) (z : Z) : res tensor :=
  match dat t with DF _ => Ok (fsc (f_of_Z z)) | DI _ => Ok (isc z) | DB _ => Err EType end.
Definition pyfloat_like (t : tensor) (x : F) : res tensor :=
  match dat t with DF _ => Ok (fsc x) | _ => Err EType end.

(** A Python number given as a constructor argument (an int or a float). *)
Inductive pynum := PyInt (z : Z) | PyFloat (d : D).
Definition pynum_like (t : tensor) (x : pynum) : res tensor :=
  match x with
  | PyInt z => pyint_like t z
  | PyFloat d => pyfloat_like t (f_of_D d)
  end.

(** ** Creation *)
(* tf.zeros(shape, dtype) *)
Definition zeros (s : list nat) (d : dtype) : tensor :=
  mkT s (match d with
         | F32 => DF (repeat f0 (prod s))
         | I32 => DI (repeat 0%Z (prod s))
         | BOOL => DB (repeat false (prod s))
         end).
(* tf.ones(dtype, shape): common.py:37,45 *)
Definition ones (s : list nat) (d : dtype) : tensor :=
  mkT s (match d with
         | F32 => DF (repeat f1 (prod s))
         | I32 => DI (repeat 1%Z (prod s))
         | BOOL => DB (repeat true (prod s))
         end).
(* tf.zeros(tf.shape(t), t.dtype) *)
Definition zeros_like (t : tensor) : tensor := zeros (sh t) (dtype_of t).
(* tf.fill(shape, value): any_value.py:9, set_during.py:22, zero_crossover_signal.py:9,10 *)
Definition fill (s : list nat) (v : tensor) : res tensor :=
  match sh v, dat v with
  | [], DF [x] => Ok (mkT s (DF (repeat x (prod s))))
  | [], DI [x] => Ok (mkT s (DI (repeat x (prod s))))
  | [], DB [x] => Ok (mkT s (DB (repeat x (prod s))))
  | _, _ => Err EShape
  end.
(** streamable.py:105-114 [concat([period], tf.shape(value))] followed by
    [tf.zeros(shape, value.dtype)].  The two [== ()] tests of [concat] are false
    for a list and a tensor, so the tf.concat branch runs. *)
Definition zeros_buffer (period : Z) (value : tensor) : res tensor :=
  if Z.ltb period 0 then Err EValue
  else Ok (zeros (Z.to_nat period :: sh value) (dtype_of value)).

(** ** Slicing along axis 0 *)
Definition lslice {A} (off len : nat) (l : list A) : list A := firstn len (skipn off l).
Definition dslice (off len : nat) (d : tdata) : tdata :=
  match d with
  | DF l => DF (lslice off len l)
  | DI l => DI (lslice off len l)
  | DB l => DB (lslice off len l)
  end.
(* x[i], negative i counting from the end *)
Definition index0 (t : tensor) (i : Z) : res tensor :=
  match sh t with
  | [] => Err EIndex
  | n :: s =>
      let j := if Z.ltb i 0 then (i + Z.of_nat n)%Z else i in
      if (Z.leb 0 j && Z.ltb j (Z.of_nat n))%bool
      then Ok (mkT s (dslice (Z.to_nat j * prod s) (prod s) (dat t)))
      else Err EIndex
  end.
(* x[a:b] with Python clamping *)
Definition slice0 (t : tensor) (a b : Z) : res tensor :=
  match sh t with
  | [] => Err EIndex
  | n :: s =>
      let norm x := if Z.ltb x 0 then Z.max 0 (x + Z.of_nat n) else Z.min x (Z.of_nat n) in
      let a' := Z.to_nat (norm a) in
      let b' := Z.to_nat (norm b) in
      Ok (mkT ((b' - a') :: s) (dslice (a' * prod s) ((b' - a') * prod s) (dat t)))
  end.
(* x[:-1] *)
Definition droplast0 (t : tensor) : res tensor := slice0 t 0 (-1).
(* tf.shape(x)[0] *)
Definition size0 (t : tensor) : res nat :=
  match sh t with [] => Err EIndex | n :: _ => Ok n end.

(** ** Joining along axis 0 *)
Definition dapp (d e : tdata) : res tdata :=
  match d, e with
  | DF a, DF b => Ok (DF (a ++ b))
  | DI a, DI b => Ok (DI (a ++ b))
  | DB a, DB b => Ok (DB (a ++ b))
  | _, _ => Err EType
  end.
(* tf.concat([t, u], axis=0) *)
Definition concat0 (t u : tensor) : res tensor :=
  match sh t, sh u with
  | n :: s, m :: s' =>
      if shape_eqb s s' then
        let* d := dapp (dat t) (dat u) in Ok (mkT ((n + m) :: s) d)
      else Err EShape
  | _, _ => Err EShape
  end.
(* [value] packed into a tensor; tf.expand_dims(x, axis=0) *)
Definition expand0 (t : tensor) : tensor := mkT (1 :: sh t) (dat t).
(* tf.stack([...]) and TensorArray.stack() *)
Fixpoint dconcat (d : tdata) (ts : list tensor) : res tdata :=
  match ts with
  | [] => Ok d
  | t :: r => let* e := dapp d (dat t) in dconcat e r
  end.
Definition tstack (ts : list tensor) : res tensor :=
  match ts with
  | [] => Err EShape
  | t :: r =>
      if forallb (fun u => shape_eqb (sh t) (sh u)) r then
        let* d := dconcat (dat t) r in Ok (mkT (length ts :: sh t) d)
      else Err EShape
  end.
(* tf.tile(tf.expand_dims(x, axis=0), [size, 1, ..., 1]): map.py:13-15,23-24 *)
Definition tile0 (size : nat) (t : tensor) : tensor :=
  mkT (size :: sh t)
      (match dat t with
       | DF l => DF (concat (repeat l size))
       | DI l => DI (concat (repeat l size))
       | DB l => DB (concat (repeat l size))
       end).

(** ** Elementwise operations with NumPy broadcasting *)
Fixpoint map2 {A B C} (f : A -> B -> C) (l : list A) (m : list B) : list C :=
  match l, m with
  | x :: l', y :: m' => f x y :: map2 f l' m'
  | _, _ => []
  end.
Definition chunks {A} (n k : nat) (l : list A) : list (list A) :=
  map (fun i => lslice (i * k) k l) (seq 0 n).
Fixpoint bshape (a b : list nat) : option (list nat) :=
  match a, b with
  | [], [] => Some []
  | x :: a', y :: b' =>
      match bshape a' b' with
      | None => None
      | Some r =>
          if Nat.eqb x y then Some (x :: r)
          else if Nat.eqb x 1 then Some (y :: r)
          else if Nat.eqb y 1 then Some (x :: r)
          else None
      end
  | _, _ => None
  end.
Definition pad_shape (r : nat) (s : list nat) : list nat := repeat 1 (r - length s) ++ s.
(* data of shape [s] replicated to shape [target] (same rank) *)
Fixpoint expand {A} (target s : list nat) (l : list A) : list A :=
  match target, s with
  | n :: t', m :: s' =>
      let cs := map (expand t' s') (chunks m (prod s') l) in
      if Nat.eqb m n then concat cs else concat (repeat (hd [] cs) n)
  | _, _ => l
  end.
Definition bop {A B C} (f : A -> B -> C) (s1 s2 : list nat) (l1 : list A) (l2 : list B)
  : res (list nat * list C) :=
  if shape_eqb s1 s2 then Ok (s1, map2 f l1 l2)
  else
    let r := Nat.max (length s1) (length s2) in
    match bshape (pad_shape r s1) (pad_shape r s2) with
    | None => Err EShape
    | Some s => Ok (s, map2 f (expand s (pad_shape r s1) l1) (expand s (pad_shape r s2) l2))
    end.

(* binary float/int operation *)
Definition tbin (ff : F -> F -> F) (fi : option (Z -> Z -> Z)) (t u : tensor) : res tensor :=
  match dat t, dat u with
  | DF a, DF b => let* (s, l) := bop ff (sh t) (sh u) a b in Ok (mkT s (DF l))
  | DI a, DI b =>
      match fi with
      | Some g => let* (s, l) := bop g (sh t) (sh u) a b in Ok (mkT s (DI l))
      | None => Err EType
      end
  | _, _ => Err EType
  end.
Definition tadd := tbin fadd (Some iadd).
Definition tsub := tbin fsub (Some isub).
Definition tmul := tbin fmul (Some imul).
(** int32 / int32 is float64 in TensorFlow, which is not modelled; every use in
    the repository then mixes it with an int32 or float32 branch and raises. *)
Definition tdiv := tbin fdiv None.
Definition tmaximum := tbin fmax (Some Z.max).
Definition tminimum := tbin fmin (Some Z.min).

(* comparison *)
Definition tcmp (ff : F -> F -> bool) (fi : Z -> Z -> bool) (t u : tensor) : res tensor :=
  match dat t, dat u with
  | DF a, DF b => let* (s, l) := bop ff (sh t) (sh u) a b in Ok (mkT s (DB l))
  | DI a, DI b => let* (s, l) := bop fi (sh t) (sh u) a b in Ok (mkT s (DB l))
  | _, _ => Err EType
  end.
Definition tless := tcmp flt Z.ltb.
Definition tgreater := tcmp fgt Z.gtb.
Definition tless_equal := tcmp fle Z.leb.
Definition tgreater_equal := tcmp fge Z.geb.
Definition tequal := tcmp feq Z.eqb.

Definition tbool2 (f : bool -> bool -> bool) (t u : tensor) : res tensor :=
  match dat t, dat u with
  | DB a, DB b => let* (s, l) := bop f (sh t) (sh u) a b in Ok (mkT s (DB l))
  | _, _ => Err EType
  end.
Definition tlogical_and := tbool2 andb.
Definition tlogical_or := tbool2 orb.
Definition tlogical_not (t : tensor) : res tensor :=
  match dat t with DB a => Ok (mkT (sh t) (DB (map negb a))) | _ => Err EType end.

(* unary float operation.  Simplification: TensorFlow also computes tf.abs, tf.negative, tf.sign and tf.pow of
   int32 tensors; in this repository such a result could only meet float32 tensors or a division, and be rejected
   there, so the model rejects it at once. *)
Definition tun (f : F -> F) (t : tensor) : res tensor :=
  match dat t with DF a => Ok (mkT (sh t) (DF (map f a))) | _ => Err EType end.
Definition tneg := tun fneg.
Definition tabs := tun fabs.
Definition tsqrt := tun fsqrt.
Definition tlog := tun flog.
Definition tsign := tun fsign.
Definition tpow (t : tensor) (k : Z) : res tensor := tun (fun x => fpow x k) t.
(* tf.is_nan *)
Definition tis_nan (t : tensor) : res tensor :=
  match dat t with DF a => Ok (mkT (sh t) (DB (map fisnan a))) | _ => Err EType end.
(* tf.cast(t, tf.int32): zero_crossover_signal.py:43 *)
Definition tcast_i32 (t : tensor) : res tensor :=
  match dat t with
  | DF a => Ok (mkT (sh t) (DI (map f_to_Z a)))
  | DI a => Ok t
  | DB a => Ok (mkT (sh t) (DI (map (fun b : bool => if b then 1%Z else 0%Z) a)))
  end.
(* tf.where(cond, x, y), all of the same shape *)
Definition sel3 {A} (c : list bool) (x y : list A) : list A :=
  map2 (fun (b : bool) xy => if b then fst xy else snd xy) c (combine x y).
Definition twhere (c x y : tensor) : res tensor :=
  if shape_eqb (sh c) (sh x) && shape_eqb (sh x) (sh y) then
    match dat c, dat x, dat y with
    | DB b, DF u, DF v => Ok (mkT (sh x) (DF (sel3 b u v)))
    | DB b, DI u, DI v => Ok (mkT (sh x) (DI (sel3 b u v)))
    | DB b, DB u, DB v => Ok (mkT (sh x) (DB (sel3 b u v)))
    | _, _, _ => Err EType
    end
  else Err EShape.

(** ** Reductions *)
(* over axis 0, column by column *)
Definition col {A} (d : A) (n k j : nat) (l : list A) : list A :=
  map (fun i => nth (i * k + j) l d) (seq 0 n).
Definition treduce0 (r : list F -> F) (t : tensor) : res tensor :=
  match sh t, dat t with
  | n :: s, DF l =>
      Ok (mkT s (DF (map (fun j => r (col f0 n (prod s) j l)) (seq 0 (prod s)))))
  | [], _ => Err EShape
  | _, _ => Err EType
  end.
(* tf.reduce_sum(t, axis=0) *)
Definition treduce_sum0 := treduce0 fsum.
(* tf.reduce_mean(t, axis=0) *)
Definition treduce_mean0 := treduce0 fmean.
(* tf.nn.moments(t, axes=0 or [0]) *)
Definition tmoments0 (t : tensor) : res (tensor * tensor) :=
  let* m := treduce0 fmean t in let* v := treduce0 fvar t in Ok (m, v).
(* over all elements *)
Definition treduce_all (r : list F -> F) (t : tensor) : res tensor :=
  match dat t with DF l => Ok (fsc (r l)) | _ => Err EType end.
(* tf.reduce_min and tf.reduce_max over all elements, also of int32: extremum.py:49-53,66-70, drawdown.py:36 *)
Definition treduce_num (r : list F -> F) (ri : list Z -> Z) (t : tensor) : res tensor :=
  match dat t with DF l => Ok (fsc (r l)) | DI l => Ok (isc (ri l)) | DB _ => Err EType end.
(* tf.reduce_any *)
Definition treduce_any (t : tensor) : res tensor :=
  match dat t with DB l => Ok (bsc (existsb (fun b => b) l)) | _ => Err EType end.

End Tensor.

(** tf.reduce_max and tf.reduce_min of int32 values (the lowest and the largest int32 for no values). *)
Definition imax_list (l : list Z) : Z := fold_left Z.max l (-2147483648)%Z.
Definition imin_list (l : list Z) : Z := fold_left Z.min l 2147483647%Z.
