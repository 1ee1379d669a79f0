(** * Clients: vocabulary for C73 — many users stream their own series through the same operators at the same time. *)
From Coq Require Import List ZArith Bool Arith.
From Verif Require Import Num Py PyFacts Tensor Streamable Spec Service.
Import ListNotations.

Section Clients.
Context {N : FOps}.
(** A user: an operator object (the same one for several users, or not), a series of their own, and the state they start from. *)
Record client := mkClient { c_op : operator; c_series : val; c_length : nat; c_from : option val }.
(** What happens: an event of Service.v to one user, or to all of them at once. *)
Inductive happening := To (who : nat) (e : event) | ToAll (e : event).
(** The progress of every user. *)
Definition office := nat -> service.
Definition opening (people : nat -> client) : office := fun i => fresh (c_from (people i)).
(** One event for one user; a call that raises leaves their progress as it was. *)
Definition attempt (p : client) (e : event) (s : service) : service :=
  match on_event (c_op p) (c_length p) (c_series p) e s with Ok s' => s' | Err _ => s end.
Definition happens (people : nat -> client) (o : office) (h : happening) : office :=
  fun i => match h with
           | To who e => if i =? who then attempt (people i) e (o i) else o i
           | ToAll e => attempt (people i) e (o i)
           end.
(** A whole schedule. *)
Definition schedule (people : nat -> client) (hs : list happening) : office := fold_left (happens people) hs (opening people).
(** The events of a schedule that reach user [i]. *)
Definition reaching (i : nat) (hs : list happening) : list event :=
  flat_map (fun h => match h with To who e => if i =? who then [e] else [] | ToAll e => [e] end) hs.
End Clients.
