(** * Service: vocabulary for C58 — a long-running user of the library that streams a series piece by piece,
    saves its state now and then, and may crash at any time. *)
From Coq Require Import List ZArith Bool.
From Verif Require Import Num Py PyFacts Tensor Streamable Spec.
Import ListNotations.

Section Service.
Context {N : FOps}.
(** [v[a:a+k]] in every tensor. *)
Definition piece (a k : nat) (v : val) : val :=
  vmap (fun t => let s := tl (sh t) in mkT (k :: s) (dslice (a * prod s) (k * prod s) (dat t))) v.

(** Streaming consecutive pieces of the given lengths, each call with the state left by the one before it:
    the output elements of all of them, and the last state. *)
Fixpoint in_pieces (op : operator) (v : val) (st : option val) (pos : nat) (lengths : list nat)
  : res (list val * option val) :=
  match lengths with
  | [] => Ok ([], st)
  | k :: r =>
      let* (o, s, _) := call op (piece pos k v) st true in
      let* (os, sf) := in_pieces op v (Some s) (pos + k) r in
      Ok (rows k o ++ os, sf)
  end.

(** What the service knows: how many elements it has streamed, the state left by them, the outputs so far. *)
Record progress := mkProgress { done : nat; left : option val; log : list val }.
Inductive event :=
| Feed (k : nat)   (* stream the next [k] elements, or as many as remain *)
| Save             (* write the progress to stable storage *)
| Crash.           (* lose everything that is not in stable storage, and restart from there *)
(** The current progress and the saved one. *)
Definition service : Type := (progress * progress)%type.
Definition on_event (op : operator) (n : nat) (v : val) (e : event) (c : service) : res service :=
  let '(now, saved) := c in
  match e with
  | Feed k =>
      match Nat.min k (n - done now) with
      | 0 => Ok c
      | k' =>
          let* (o, s, _) := call op (piece (done now) k' v) (left now) true in
          Ok (mkProgress (done now + k') (Some s) (log now ++ rows k' o), saved)
      end
  | Save => Ok (now, now)
  | Crash => Ok (saved, saved)
  end.
Fixpoint on_events (op : operator) (n : nat) (v : val) (es : list event) (c : service) : res service :=
  match es with
  | [] => Ok c
  | e :: r => let* c' := on_event op n v e c in on_events op n v r c'
  end.
Definition fresh (st : option val) : service := (mkProgress 0 st [], mkProgress 0 st []).
End Service.
