(** * MirrorSign: the zero crossings of a mirrored series, for IEEE single precision and exact arithmetic (C63). *)
From Coq Require Import List ZArith Bool Lia.
From Verif Require Import Num Py Tensor Streamable Meta Common Finance Series Formulas Positions Order B32 ImplComp ImplSignal SignalFacts SignPos.
Import ListNotations.

Section M.
Context {N : FOps} {usable : F -> Prop} (O : orderly N usable).
(** Number by number, [ys] is on the other side of 0 than [xs]. *)
Definition opposite (s : list nat) (xs ys : list (list F)) : Prop :=
  forall n j, n < length xs -> j < prod s ->
    flt f0 (number ys j n) = flt (number xs j n) f0 /\ flt (number ys j n) f0 = flt f0 (number xs j n) /\
    feq (number ys j n) f0 = feq (number xs j n) f0.
Theorem crossings_mirror s xs ys : xs <> [] -> length ys = length xs -> ok_rows s (rev xs) -> ok_rows s (rev ys) ->
  Forall (Forall usable) xs -> Forall (Forall usable) ys -> opposite s xs ys ->
  (forall j, j < prod s -> feq (number xs j 0) f0 = false) ->
  exists o o' sf s0 sf' s0',
    call ZeroCrossoverSignal (tensors s xs) None true = Ok (int_tensors s o, sf, s0) /\
    call ZeroCrossoverSignal (tensors s ys) None true = Ok (int_tensors s o', sf', s0') /\
    length o = length xs /\ length o' = length xs /\
    forall n j, n < length xs -> j < prod s -> inumber o' j n = (- inumber o j n)%Z.
Proof.
  intros NE L OX OY UX UY OP Z. assert (NY : ys <> []) by (destruct xs, ys; easy).
  destruct (zc_positions O s xs NE OX UX) as (o & sf & s0 & E & Lo & H).
  destruct (zc_positions O s ys NY OY UY) as (o' & sf' & s0' & E' & Lo' & H').
  exists o, o', sf, s0, sf', s0'. split; [exact E|]. split; [exact E'|]. split; [exact Lo|]. split; [congruence|].
  intros n j Hn Hj. destruct (H n j Hn Hj) as (V & _ & P & M & _).
  destruct (H' n j ltac:(lia) Hj) as (V' & _ & P' & M' & _).
  assert (W1 : was_negative (number ys j) n -> was_positive (number xs j) n).
  { intros (i & Hi & A & B). left. exists i. split; [exact Hi|]. destruct (OP i j ltac:(lia) Hj) as (_ & Q & _). split; [congruence|].
    intros k Hk. destruct (OP k j ltac:(lia) Hj) as (_ & _ & R). rewrite <- R. now apply B. }
  assert (W2 : n > 0 -> was_positive (number xs j) n -> was_negative (number ys j) n).
  { intros Hp [(i & Hi & A & B)|B]; [|specialize (B 0 Hp); rewrite (Z j Hj) in B; discriminate].
    exists i. split; [exact Hi|]. destruct (OP i j ltac:(lia) Hj) as (_ & Q & _). split; [congruence|].
    intros k Hk. destruct (OP k j ltac:(lia) Hj) as (_ & _ & R). rewrite R. now apply B. }
  assert (W3 : was_negative (number xs j) n -> was_positive (number ys j) n).
  { intros (i & Hi & A & B). left. exists i. split; [exact Hi|]. destruct (OP i j ltac:(lia) Hj) as (Q & _ & _). split; [congruence|].
    intros k Hk. destruct (OP k j ltac:(lia) Hj) as (_ & _ & R). rewrite R. now apply B. }
  assert (W4 : n > 0 -> was_positive (number ys j) n -> was_negative (number xs j) n).
  { intros Hp [(i & Hi & A & B)|B].
    - exists i. split; [exact Hi|]. destruct (OP i j ltac:(lia) Hj) as (Q & _ & _). split; [congruence|].
      intros k Hk. destruct (OP k j ltac:(lia) Hj) as (_ & _ & R). rewrite <- R. now apply B.
    - specialize (B 0 Hp). destruct (OP 0 j ltac:(lia) Hj) as (_ & _ & R). rewrite R, (Z j Hj) in B. discriminate. }
  destruct (OP n j Hn Hj) as (Q1 & Q2 & _).
  assert (A : inumber o' j n = 1%Z <-> inumber o j n = (-1)%Z).
  { rewrite P', M, Q1. split; intros (? & ? & ?); auto. }
  assert (B : inumber o' j n = (-1)%Z <-> inumber o j n = 1%Z).
  { rewrite M', P, Q2. split; intros (? & ? & ?); auto. }
  destruct V as [V|[V|V]].
  - rewrite V. now apply B.
  - rewrite V. destruct V' as [V'|[V'|V']]; [apply A in V'; lia|exact V'|apply B in V'; lia].
  - rewrite V. now apply A.
Qed.
End M.

(** Leading zeros count as positive: 0, 1 crosses nothing, 0, -1 gives a sell signal. *)
Lemma zeros_not_mirrored log32 : let N := B32 log32 in
  exists sf s0 sf' s0',
    @call N (@ZeroCrossoverSignal N) (@scalars N [b32_of_Z 0; b32_of_Z 1]) None true = Ok (@ints N [0; 0]%Z, sf, s0) /\
    @call N (@ZeroCrossoverSignal N) (@scalars N [b32_of_Z 0; b32_of_Z (-1)]) None true = Ok (@ints N [0; -1]%Z, sf', s0').
Proof.
  cbv zeta.
  set (r := @call _ _ (@scalars (B32 log32) [b32_of_Z 0; b32_of_Z 1]) _ _).
  set (r' := @call _ _ (@scalars (B32 log32) [b32_of_Z 0; b32_of_Z (-1)]) _ _).
  exists (state_of r), (start_of r), (state_of r'), (start_of r').
  split; [vm_cast_no_check (@eq_refl _ r)|vm_cast_no_check (@eq_refl _ r')].
Qed.
