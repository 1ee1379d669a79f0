(** * PropsService: property C58 — any division into pieces, checkpoints and crashes.
    Vocabulary: Service.v, Structure.v ([typed]), Shapes.v ([well_shaped]), Spec.v. *)
From Coq Require Import List ZArith Bool Lia.
From Verif Require Import Num Py PyFacts Tensor Streamable Spec SpecMeta Meta Common Finance Library
  GenuineBase GenuineLib Structure StructLib StructProofs Shapes Service ServiceFacts Witness.
Import ListNotations.

(** A series streamed as consecutive pieces, however many and however long, each with the state left by the one
    before it, gives the outputs and the final state of the single call. *)
Theorem C58_pieces {N : FOps} op v st n outs sf s0 lengths zo zs :
  typed op (sk v) zo zs -> genuine v -> genuine_opt st -> state_like st zs -> is_series n v ->
  call op v st true = Ok (outs, sf, s0) ->
  Forall (fun k => 0 < k) lengths -> list_sum lengths = n -> 0 < n ->
  in_pieces op v st 0 lengths = Ok (rows n outs, Some sf).
Proof. intros T G Gst SL SR C. exact (pieces op v outs sf s0 st n G SR C (structured_prefixes op v outs sf s0 st n zo zs T G Gst SL SR C) (structured_splits op v s0 st n zo zs T G Gst SL SR) lengths). Qed.
Print Assumptions C58_pieces.
(** Whatever a service does (stream some more, save its progress, crash and restart from the saved progress), in any
    order: no call fails, and the outputs it has are the first outputs of the single call. *)
Theorem C58_recovery {N : FOps} op v st n outs sf s0 events zo zs :
  typed op (sk v) zo zs -> genuine v -> genuine_opt st -> state_like st zs -> is_series n v ->
  call op v st true = Ok (outs, sf, s0) ->
  exists now saved, on_events op n v events (fresh st) = Ok (now, saved) /\
    done now <= n /\ log now = firstn (done now) (rows n outs).
Proof. intros T G Gst SL SR C. exact (recovery op v outs sf s0 st n C (structured_prefixes op v outs sf s0 st n zo zs T G Gst SL SR C) (structured_splits op v s0 st n zo zs T G Gst SL SR) events). Qed.
Print Assumptions C58_recovery.
(** Once it reaches the end it has all of them, and the state the single call leaves. *)
Theorem C58_recovery_complete {N : FOps} op v st n outs sf s0 events zo zs :
  typed op (sk v) zo zs -> genuine v -> genuine_opt st -> state_like st zs -> is_series n v ->
  call op v st true = Ok (outs, sf, s0) -> 0 < n ->
  exists saved, on_events op n v (events ++ [Feed n]) (fresh st) = Ok (mkProgress n (Some sf) (rows n outs), saved).
Proof. intros T G Gst SL SR C. exact (recovery_complete op v outs sf s0 st n G SR C (structured_prefixes op v outs sf s0 st n zo zs T G Gst SL SR C) (structured_splits op v s0 st n zo zs T G Gst SL SR) events). Qed.
Print Assumptions C58_recovery_complete.
(** For inputs of the shapes and dtypes the operator takes (C49), nothing fails, single call included. *)
Theorem C58_total {N : FOps} op v st n zx zo zs :
  well_shaped op zx zo zs -> leaves zx <> [] -> genuine v -> sig v = wide n zx -> state_shaped st zs -> 0 < n ->
  exists outs sf s0, call op v st true = Ok (outs, sf, s0) /\
    (forall lengths, Forall (fun k => 0 < k) lengths -> list_sum lengths = n -> in_pieces op v st 0 lengths = Ok (rows n outs, Some sf)) /\
    (forall events, exists now saved, on_events op n v events (fresh st) = Ok (now, saved) /\
       done now <= n /\ log now = firstn (done now) (rows n outs)) /\
    (forall events, exists saved, on_events op n v (events ++ [Feed n]) (fresh st) = Ok (mkProgress n (Some sf) (rows n outs), saved)).
Proof. exact (shaped_service op v st n zx zo zs). Qed.
Print Assumptions C58_total.
Example C58_met : typed w_op (sk w_series) one z_sma /\ well_shaped w_op num num (s_sma 2 []) /\ sig w_series = wide 5 num /\ genuine w_series /\ is_series 5 w_series /\
  (exists r, call w_op w_series None true = Ok r) /\
  Forall (fun k => 0 < k) [2; 1; 2] /\ list_sum [2; 1; 2] = 5 /\
  match on_events w_op 5 w_series [Feed 2; Save; Feed 2; Crash; Feed 1; Crash; Save; Feed 2] (fresh None) with
  | Ok (now, saved) => done now = 4 /\ done saved = 2 /\ length (log now) = 4
  | Err _ => False
  end.
Proof.
  split; [eapply ty_step; [apply sg_sma|reflexivity]|]. split; [eapply ws_step; [apply tk_sma; lia|reflexivity]|]. split; [reflexivity|]. split; [gen|]. split; [exact w_is_series|]. split; [exact w_runs|].
  split; [repeat constructor|]. split; [reflexivity|]. vm_compute. auto.
Qed.
