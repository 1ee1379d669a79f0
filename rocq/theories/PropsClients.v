(** * PropsClients: property C73 — users of one operator do not see each other.
    Vocabulary: Clients.v ([client], [happening], [schedule people hs i]: the progress of user [i] after the schedule [hs];
    [reaching i hs]: the events of [hs] for user [i]), Service.v ([progress], [event]), Structure.v ([typed]), Spec.v. *)
From Coq Require Import List ZArith Bool Arith Lia.
From Verif Require Import Num Py PyFacts Tensor Streamable Spec SpecMeta Meta Common Finance Library
  GenuineBase GenuineLib Structure StructLib StructProofs Shapes Series Service Clients ClientFacts Witness.
Import ListNotations.

(** The progress of a user depends on nobody else: not on who else uses the operator, with which series, when, and whether their calls fail. *)
Theorem C73_alone {N : FOps} people people' hs hs' i : people i = people' i -> reaching i hs = reaching i hs' ->
  schedule people hs i = schedule people' hs' i.
Proof. exact (same_events people people' hs hs' i). Qed.
Print Assumptions C73_alone.
(** Whatever happens to whom in whichever order: the outputs a user has are the first outputs of their single call over the whole series … *)
Theorem C73_served {N : FOps} people hs i outs sf s0 zo zs : let p := people i in
  typed (c_op p) (sk (c_series p)) zo zs -> genuine (c_series p) -> genuine_opt (c_from p) -> state_like (c_from p) zs -> is_series (c_length p) (c_series p) ->
  call (c_op p) (c_series p) (c_from p) true = Ok (outs, sf, s0) ->
  let now := fst (schedule people hs i) in
  done now <= c_length p /\ log now = firstn (done now) (rows (c_length p) outs).
Proof. exact (served people hs i outs sf s0 zo zs). Qed.
Print Assumptions C73_served.
(** … and all of them, with its final state, once they have streamed what was left, whatever the others do then. *)
Theorem C73_complete {N : FOps} people hs rest i outs sf s0 zo zs : let p := people i in
  typed (c_op p) (sk (c_series p)) zo zs -> genuine (c_series p) -> genuine_opt (c_from p) -> state_like (c_from p) zs -> is_series (c_length p) (c_series p) ->
  call (c_op p) (c_series p) (c_from p) true = Ok (outs, sf, s0) -> 0 < c_length p -> reaching i rest = [] ->
  fst (schedule people (hs ++ To i (Feed (c_length p)) :: rest) i) = mkProgress (c_length p) (Some sf) (rows (c_length p) outs).
Proof. exact (served_complete people hs rest i outs sf s0 zo zs). Qed.
Print Assumptions C73_complete.

(** Two users of one moving average, and a third whose calls fail. *)
Definition some_people (i : nat) : client :=
  match i with
  | 0 => mkClient w_op w_series 5 None
  | 1 => mkClient w_op (scalars (map f_of_Z [7; 1; 4]%Z)) 3 None
  | _ => mkClient w_op (Leaf (mkT [2] (DI [1; 2]%Z))) 2 None
  end.
Definition some_schedule : list happening :=
  [To 0 (Feed 2); To 1 (Feed 1); To 2 (Feed 1); ToAll Save; To 0 (Feed 1); To 1 (Feed 1); ToAll Crash; To 1 (Feed 3); To 2 (Feed 2); To 0 (Feed 5); To 1 Crash].
Example C73_met : typed w_op (sk w_series) one z_sma /\ genuine w_series /\ is_series 5 w_series /\
  (exists r, call w_op w_series None true = Ok r) /\ (exists e, call w_op (c_series (some_people 2)) None true = Err e) /\
  done (fst (schedule some_people some_schedule 0)) = 5 /\ length (log (fst (schedule some_people some_schedule 0))) = 5 /\
  done (fst (schedule some_people some_schedule 1)) = 1 /\ done (fst (schedule some_people some_schedule 2)) = 0 /\
  reaching 0 some_schedule = [Feed 2; Save; Feed 1; Crash; Feed 5].
Proof.
  split; [eapply ty_step; [apply sg_sma|reflexivity]|]. split; [gen|]. split; [exact w_is_series|]. split; [exact w_runs|]. split; [eexists; reflexivity|].
  repeat split; reflexivity.
Qed.
