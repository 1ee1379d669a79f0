(** * Mirror: vocabulary of property C63 (exact arithmetic).  Nothing here models code of /repo. *)
From Coq Require Import Reals List ZArith Bool.
From Verif Require Import Num Py Tensor Streamable Series ER RealMarket StatReal ImplCorr.
Import ListNotations.
Local Open Scope R_scope.

(** The mirror image of a number about c/2 (about 0 when c = 0); of an output. *)
Definition mirror (c x : R) : R := c - x.
Definition e_mirror (c : R) (x : ext) : ext := e_sub (Fin c) x.
(** The mirror image of a candle: what was the high is now the low. *)
Definition mirror_candle (k : rcandle) : rcandle := RC (- r_open k) (- r_low k) (- r_high k) (- r_close k).
(** On the series changed by [T], [op'] gives what [op] gives on the series itself, changed by [U]. *)
Definition mirrors {X} (op op' : @operator ER) (ok : list X -> Prop) (inp : list X -> @val ER) (T : X -> X) (U : ext -> ext) : Prop :=
  forall xs, xs <> [] -> ok xs ->
  exists o s i s' i', call op (inp xs) None true = Ok (scalars o, s, i) /\
    call op' (inp (map T xs)) None true = Ok (scalars (map U o), s', i').
(** The same for two series of tensors of shape [s]: outputs are changed number by number. *)
Definition mirrors_pairs (op : @operator ER) (s : list nat) (T : list R * list R -> list R * list R) (U : ext -> ext) : Prop :=
  forall xs, xs <> [] -> rpairs_ok s xs ->
  exists o sf s0 sf' s0', call op (tensor_pairs s (map fin_rows xs)) None true = Ok (tensors s o, sf, s0) /\
    call op (tensor_pairs s (map fin_rows (map T xs))) None true = Ok (tensors s (map (map U) o), sf', s0').
(** One of two series mirrored; the two series exchanged. *)
Definition mirror_first (c : R) (x : list R * list R) : list R * list R := (map (mirror c) (fst x), snd x).
Definition mirror_second (c : R) (x : list R * list R) : list R * list R := (fst x, map (mirror c) (snd x)).
Definition pair_swap {X} (x : X * X) : X * X := (snd x, fst x).
