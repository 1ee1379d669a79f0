(** * PropsCount: property C81 — Compose and Join given the wrong number of states.
    Vocabulary: Spec.v and Raise.v. *)
From Coq Require Import List ZArith Bool Lia.
From Verif Require Import Num Py PyFacts Tensor Streamable Spec Meta Common Finance Raise RaiseFacts
  GenuineLib CountFacts PropsRaise Witness.
Import ListNotations.

(** Fewer states than operators: as many operators as there are states run, the innermost
    ones of a composition and the first ones of a Join, on one element and on a stream. *)
Theorem C81_compose_few {N : FOps} ops sts v b : length sts <= length ops -> genuine (Tup sts) ->
  call (Compose ops) v (Some (Tup sts)) b =
  call (Compose (skipn (length ops - length sts) ops)) v (Some (Tup sts)) b.
Proof. intros L [P _]. exact (compose_few ops sts v b L P). Qed.
Print Assumptions C81_compose_few.
Theorem C81_join_few {N : FOps} ops sts v b : length sts <= length ops -> genuine (Tup sts) ->
  call (Join ops) v (Some (Tup sts)) b = call (Join (firstn (length sts) ops)) v (Some (Tup sts)) b.
Proof. intros L [P _]. exact (join_few ops sts v b L P). Qed.
Print Assumptions C81_join_few.

(** More states than operators: on one element the ones in excess are ignored, *)
Theorem C81_compose_many {N : FOps} ops sts v : length ops <= length sts -> genuine v -> genuine (Tup sts) ->
  call (Compose ops) v (Some (Tup sts)) false = call (Compose ops) v (Some (Tup (firstn (length ops) sts))) false.
Proof. intros L [Pv _] [P _]. exact (compose_many ops sts v L Pv P). Qed.
Print Assumptions C81_compose_many.
Theorem C81_join_many {N : FOps} ops sts v : length ops <= length sts -> genuine v -> genuine (Tup sts) ->
  call (Join ops) v (Some (Tup sts)) false = call (Join ops) v (Some (Tup (firstn (length ops) sts))) false.
Proof. intros L [Pv _] [P _]. exact (join_many ops sts v L Pv P). Qed.
Print Assumptions C81_join_many.
(** only the operators that ran return a state, *)
Theorem C81_compose_returned {N : FOps} ops sts v o s' i :
  genuine v -> genuine (Tup sts) -> call (Compose ops) v (Some (Tup sts)) false = Ok (o, s', i) ->
  exists l, s' = Tup l /\ length l = Nat.min (length ops) (length sts).
Proof. exact (compose_returned ops sts v o s' i). Qed.
Print Assumptions C81_compose_returned.
Theorem C81_join_returned {N : FOps} ops sts vs o s' i :
  genuine (Tup vs) -> genuine (Tup sts) -> call (Join ops) (Tup vs) (Some (Tup sts)) false = Ok (o, s', i) ->
  exists l, s' = Tup l /\ length l = Nat.min (length ops) (Nat.min (length vs) (length sts)).
Proof. exact (join_returned ops sts vs o s' i). Qed.
Print Assumptions C81_join_returned.
(** and a stream of any length is refused. *)
Theorem C81_compose_many_streamed {N : FOps} ops sts v n :
  length ops < length sts -> Forall genuine_op ops -> genuine v -> genuine (Tup sts) -> is_series n v ->
  raises (call (Compose ops) v (Some (Tup sts)) true).
Proof. exact (compose_many_streamed ops sts v n). Qed.
Print Assumptions C81_compose_many_streamed.
(** A Join is refused too when it is given more states than inputs. *)
Theorem C81_join_many_streamed {N : FOps} ops sts vs n :
  length ops < length sts \/ length vs < length sts -> Forall genuine_op ops ->
  genuine (Tup vs) -> genuine (Tup sts) -> is_series n (Tup vs) ->
  raises (call (Join ops) (Tup vs) (Some (Tup sts)) true).
Proof. exact (join_many_streamed ops sts vs n). Qed.
Print Assumptions C81_join_many_streamed.

Definition w_st (z : Z) : val := Leaf (mkT [1] (DF [fz z])).
Example C81_met :
  (exists r, call (Compose [Lag 2; Lag 1]) (ser [1; 2; 3]%Z) (Some (Tup [w_st 7])) true = Ok r /\
             call (Compose [Lag 1]) (ser [1; 2; 3]%Z) (Some (Tup [w_st 7])) true = Ok r) /\
  (exists r, call (Join [Lag 1; Lag 2]) (Tup [ser [1; 2]%Z; ser [3; 4]%Z]) (Some (Tup [w_st 7])) true = Ok r) /\
  (exists r, call (Compose [Lag 1]) (Leaf (fsc (fz 1))) (Some (Tup [w_st 7; w_st 8])) false = Ok r) /\
  (exists r, call (Join [Lag 1]) (Tup [Leaf (fsc (fz 1))]) (Some (Tup [w_st 7; w_st 8])) false = Ok r) /\
  raises (call (Compose [Lag 1]) (ser [1; 2]%Z) (Some (Tup [w_st 7; w_st 8])) true) /\
  raises (call (Join [Lag 1]) (Tup [ser [1; 2]%Z]) (Some (Tup [w_st 7; w_st 8])) true).
Proof.
  split.
  { assert (E : exists r, call (Compose [Lag 1]) (ser [1; 2; 3]%Z) (Some (Tup [w_st 7])) true = Ok r) by runs.
    destruct E as (r & E). exists r. split; [|exact E]. rewrite C81_compose_few; [exact E|simpl; lia|gen]. }
  split; [runs|]. split; [runs|]. split; [runs|].
  split; apply okb_raises; vm_compute; reflexivity.
Qed.

(** A wrong number of states is therefore not always an error. *)
Theorem C81_mismatch_raises_refuted : exists ops st v r,
  length st <> length ops /\ genuine v /\ genuine (Tup st) /\
  call (Compose ops) v (Some (Tup st)) true = Ok r.
Proof.
  assert (E : exists r, call (Compose [Lag 2; Lag 1]) (ser [1; 2; 3]%Z) (Some (Tup [w_st 7])) true = Ok r) by runs.
  destruct E as (r & E). exists [Lag 2; Lag 1], [w_st 7], (ser [1; 2; 3]%Z), r.
  split; [simpl; lia|]. split; [gen|]. split; [gen|exact E].
Qed.
Print Assumptions C81_mismatch_raises_refuted.
