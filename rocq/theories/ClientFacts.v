(** * ClientFacts: proofs for C73. *)
From Coq Require Import List ZArith Bool Arith Lia.
From Verif Require Import Num Py PyFacts Tensor Streamable Spec SpecMeta Meta Common Finance Library
  GenuineBase GenuineLib Structure StructLib StructProofs Shapes Service ServiceFacts Clients.
Import ListNotations.

Section ClientFacts.
Context {N : FOps}.
Lemma alone_from people i hs : forall o, fold_left (happens people) hs o i = fold_left (fun s e => attempt (people i) e s) (reaching i hs) (o i).
Proof.
  induction hs as [|h hs IH]; intros o; [reflexivity|]. cbn [fold_left]. rewrite IH. change (reaching i (h :: hs)) with
    (match h with To who e => if i =? who then [e] else [] | ToAll e => [e] end ++ reaching i hs). rewrite fold_left_app. f_equal.
  unfold happens. destruct h as [who e|e]; [destruct (i =? who)|]; reflexivity.
Qed.
Theorem same_events people people' hs hs' i : people i = people' i -> reaching i hs = reaching i hs' -> schedule people hs i = schedule people' hs' i.
Proof. intros P E. unfold schedule. rewrite !alone_from. unfold opening. now rewrite P, E. Qed.
Lemma attempts p es : forall s s', on_events (c_op p) (c_length p) (c_series p) es s = Ok s' -> fold_left (fun s e => attempt p e s) es s = s'.
Proof.
  induction es as [|e es IH]; intros s s' E; cbn in *; [now injection E|]. apply bind_ok in E as (x & X & E). unfold attempt at 2. rewrite X. now apply IH.
Qed.
Theorem served people hs i outs sf s0 zo zs : let p := people i in
  typed (c_op p) (sk (c_series p)) zo zs -> genuine (c_series p) -> genuine_opt (c_from p) -> state_like (c_from p) zs -> is_series (c_length p) (c_series p) ->
  call (c_op p) (c_series p) (c_from p) true = Ok (outs, sf, s0) ->
  let now := fst (schedule people hs i) in
  done now <= c_length p /\ log now = firstn (done now) (rows (c_length p) outs).
Proof.
  intros p T G Gst SL SR C.
  destruct (recovery (c_op p) (c_series p) outs sf s0 (c_from p) (c_length p) C (structured_prefixes _ _ outs sf s0 _ _ zo zs T G Gst SL SR C) (structured_splits _ _ s0 _ _ zo zs T G Gst SL SR) (reaching i hs))
    as (now & saved & E & D & L).
  unfold schedule. rewrite alone_from. fold p. unfold opening. fold p. rewrite (attempts p _ _ _ E). cbn [fst]. auto.
Qed.
Lemma reaching_app i a b : reaching i (a ++ b) = reaching i a ++ reaching i b.
Proof. apply flat_map_app. Qed.
Theorem served_complete people hs rest i outs sf s0 zo zs : let p := people i in
  typed (c_op p) (sk (c_series p)) zo zs -> genuine (c_series p) -> genuine_opt (c_from p) -> state_like (c_from p) zs -> is_series (c_length p) (c_series p) ->
  call (c_op p) (c_series p) (c_from p) true = Ok (outs, sf, s0) -> 0 < c_length p -> reaching i rest = [] ->
  fst (schedule people (hs ++ To i (Feed (c_length p)) :: rest) i) = mkProgress (c_length p) (Some sf) (rows (c_length p) outs).
Proof.
  intros p T G Gst SL SR C P R.
  destruct (recovery_complete (c_op p) (c_series p) outs sf s0 (c_from p) (c_length p) G SR C (structured_prefixes _ _ outs sf s0 _ _ zo zs T G Gst SL SR C) (structured_splits _ _ s0 _ _ zo zs T G Gst SL SR) (reaching i hs) P)
    as (saved & E).
  unfold schedule. rewrite alone_from. fold p. unfold opening. fold p. rewrite reaching_app. change (To i ?e :: rest) with ([To i e] ++ rest). rewrite reaching_app, R.
  cbn [reaching flat_map]. rewrite Nat.eqb_refl, !app_nil_r. now rewrite (attempts p _ _ _ E).
Qed.
End ClientFacts.
