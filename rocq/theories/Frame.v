(** * Frame: tensorstream/common/__init__.py:30-36, [transpose], and the part of pandas 0.24.2
    (the version pinned in setup.py:14) it uses.  The rest of the model does not depend on this file. *)
From Coq Require Import List ZArith Bool String.
From Verif Require Import Py.
Import ListNotations.

Section Frame.
Context {A : Type} (nan : A).

(** A [pandas.DataFrame]: row labels and named columns, in order.  Simplification: labels are
    integers ([RangeIndex], [Int64Index], dates as numbers), cells have one type. *)
Record frame := mkFrame { labels : list Z; columns : list (string * list A) }.
(** A [pandas.Series] taken from a frame: its name is the name of the column. *)
Record series := mkSeries { s_labels : list Z; s_name : string; s_values : list A }.

(** [ts[col]], common/__init__.py:34.  Simplification: when the name occurs twice pandas returns
    a frame; the model rejects it. *)
Definition getitem (ts : frame) (col : string) : res series :=
  match filter (fun c => String.eqb (fst c) col) (columns ts) with
  | [] => Err EKey
  | [c] => Ok (mkSeries (labels ts) col (snd c))
  | _ => Err EType
  end.

(** [Index.equals] *)
Fixpoint same_labels (a b : list Z) : bool :=
  match a, b with
  | [], [] => true
  | x :: a, y :: b => Z.eqb x y && same_labels a b
  | _, _ => false
  end.
Fixpoint insert (x : Z) (l : list Z) : list Z :=
  match l with [] => [x] | y :: r => if Z.leb x y then x :: l else y :: insert x r end.
Definition sort (l : list Z) : list Z := fold_right insert [] l.

(** [Index.union] with sort=None (pandas/core/indexes/base.py): the operands themselves when they
    are equal or one is empty, otherwise the sorted union.  Simplification: labels occurring twice
    in one operand are merged. *)
Definition union (a b : list Z) : list Z :=
  match b with
  | [] => a
  | _ => if same_labels a b then a else match a with [] => b | _ => sort (nodup Z.eq_dec (a ++ b)) end
  end.

(** Alignment of one series to the labels of the result; a series with repeated labels can only be
    aligned to its own labels. *)
Fixpoint cell (ls : list Z) (vs : list A) (l : Z) : A :=
  match ls, vs with
  | x :: ls, v :: vs => if Z.eqb x l then v else cell ls vs l
  | _, _ => nan
  end.
Fixpoint distinct (l : list Z) : bool :=
  match l with [] => true | x :: r => negb (existsb (Z.eqb x) r) && distinct r end.
Definition reindex (target : list Z) (s : series) : res (list A) :=
  if same_labels (s_labels s) target then Ok (s_values s)
  else if distinct (s_labels s) then Ok (map (cell (s_labels s) (s_values s)) target)
  else Err EValue.

(** [pd.concat(series, axis=1)], common/__init__.py:35: one column per series, under its name;
    the row labels are the union from left to right. *)
Definition concat_columns (l : list series) : res frame :=
  match l with
  | [] => Err EValue
  | s :: r =>
      let index := fold_left union (map s_labels r) (s_labels s) in
      let* cols := mapM (fun s => let* v := reindex index s in Ok (s_name s, v)) l in
      Ok (mkFrame index cols)
  end.

(** [data[col] = ...], common/__init__.py:35: a key keeps the place of its first insertion. *)
Fixpoint dict_set (data : list (string * frame)) (k : string) (v : frame) : list (string * frame) :=
  match data with
  | [] => [(k, v)]
  | (k', v') :: r => if String.eqb k k' then (k, v) :: r else (k', v') :: dict_set r k v
  end.

(** The loop, common/__init__.py:33-35. *)
Fixpoint transpose_loop (cols : list string) (products_df : list frame) (data : list (string * frame))
  : res (list (string * frame)) :=
  match cols with
  | [] => Ok data
  | col :: cols =>
      let* series := mapM (fun ts => getitem ts col) products_df in
      let* f := concat_columns series in
      transpose_loop cols products_df (dict_set data col f)
  end.
(** common/__init__.py:30-36 *)
Definition transpose (products_df : list frame) : res (list (string * frame)) :=
  match products_df with
  | [] => Err EIndex
  | first :: _ => transpose_loop (map fst (columns first)) products_df []
  end.
End Frame.
Arguments frame : clear implicits.
Arguments series : clear implicits.
