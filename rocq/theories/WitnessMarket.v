(** * WitnessMarket: concrete price series in single precision. *)
From Coq Require Import List ZArith Bool Lia.
From Coq Require Import Floats.SpecFloat.
From Verif Require Import Num Py Tensor Streamable Common Finance B32 Series Formulas ImplMarket.
Import ListNotations.

Section Abort.
Variable log32 : spec_float -> spec_float.
Let N := B32 log32.
Existing Instance N.
Definition wcandle (x : Z * Z * Z * Z) : candle :=
  let '(o, h, l, c) := x in Candle (f_of_Z o) (f_of_Z h) (f_of_Z l) (f_of_Z c).
(** Ten quiet periods around 100, a jump to 150, a fall back to 115. *)
Definition jump : list candle := map wcandle
  (repeat (100, 101, 99, 100)%Z 10 ++ [(150, 151, 149, 150); (115, 116, 114, 115)]%Z).
Definition well_formed (c : candle) : bool :=
  flt f0 (c_low c) && fle (c_low c) (c_close c) && fle (c_close c) (c_high c) && fle (c_low c) (c_open c) && fle (c_open c) (c_high c).
Definition aborts {A} (r : res A) : bool := match r with Err EAssert => true | _ => false end.
Lemma aborts_spec {A} (r : res A) : aborts r = true -> r = Err EAssert.
Proof. destruct r as [|e]; [discriminate|]. now destruct e. Qed.
Lemma jump_aborts : call (Supertrend 10 (PyInt 3)) (bars jump) None true = Err EAssert.
Proof. apply aborts_spec. vm_compute. reflexivity. Qed.
Lemma jump_well_formed : forallb well_formed jump = true.
Proof. vm_compute. reflexivity. Qed.

(** Without the fall back the call succeeds, and a line different from 0 is emitted. *)
Definition rising : list candle := map wcandle (repeat (100, 101, 99, 100)%Z 10 ++ [(150, 151, 149, 150); (160, 161, 159, 160)]%Z).
Definition succeeds {A} (r : res A) : bool := match r with Ok _ => true | Err _ => false end.
Lemma succeeds_spec {A} (r : res A) : succeeds r = true -> exists x, r = Ok x.
Proof. destruct r as [x|]; [now exists x|discriminate]. Qed.
Lemma rising_succeeds : exists r, call (Supertrend 10 (PyInt 3)) (bars rising) None true = Ok r.
Proof. apply succeeds_spec. vm_compute. reflexivity. Qed.
Lemma rising_short : rising <> [] /\ short (rev rising).
Proof. split; [discriminate|]. unfold short. rewrite rev_length. unfold rising. rewrite map_length, app_length, repeat_length. cbn [length]. lia. Qed.
Lemma supertrend_aborts :
  exists xs, forallb well_formed xs = true /\ call (Supertrend 10 (PyInt 3)) (bars xs) None true = Err EAssert.
Proof. exists jump. split; [exact jump_well_formed|exact jump_aborts]. Qed.

(** A falling price: the histogram is never positive. *)
Definition falling : list F := map f_of_Z [20; 20; 19; 15; 5]%Z.
Definition as_ints (r : res (val * val * val)) : option (list Z) :=
  match r with Ok (Leaf (mkT [n] (DI l)), _, _) => if Nat.eqb n (length l) then Some l else None | _ => None end.
Lemma as_ints_spec r l : as_ints r = Some l -> exists sf s0, r = Ok (ints l, sf, s0).
Proof.
  destruct r as [[[o sf] s0]|]; [|discriminate]. destruct o as [[[|n []] [|l'|]]| | | |]; try discriminate. cbn.
  destruct (Nat.eqb_spec n (length l')) as [->|]; intros H; [|discriminate]. injection H as ->. now exists sf, s0.
Qed.
Definition as_macd (r : res (val * val * val)) : option (list F) :=
  match r with Ok (Tup [_; _; _; _; Leaf (mkT [n] (DF l))], _, _) => if Nat.eqb n (length l) then Some l else None | _ => None end.
Lemma as_macd_spec r l : as_macd r = Some l -> exists a b c d sf s0, r = Ok (Tup [a; b; c; d; scalars l], sf, s0).
Proof.
  destruct r as [[[o sf] s0]|]; [|discriminate]. destruct o as [|[|a [|b [|c [|d [|e []]]]]]| | |]; try discriminate.
  destruct e as [[[|n []] [l'| |]]| | | |]; try discriminate. unfold as_macd.
  destruct (Nat.eqb_spec n (length l')) as [->|]; intros H; [|discriminate]. injection H as ->. now exists a, b, c, d, sf, s0.
  destruct e as [[[|? []] []]| | | |]; discriminate.
Qed.
Definition list_is (o : option (list Z)) (l : list Z) : bool :=
  match o with Some l' => if list_eq_dec Z.eq_dec l' l then true else false | None => false end.
Definition never_positive (o : option (list F)) : bool :=
  match o with Some l => forallb (fun x => negb (flt f0 x)) l | None => false end.
Lemma list_is_spec r l : list_is (as_ints r) l = true -> exists sf s0, r = Ok (ints l, sf, s0).
Proof.
  unfold list_is. destruct (as_ints r) as [l'|] eqn:E; [|discriminate]. destruct (list_eq_dec Z.eq_dec l' l) as [->|]; [|discriminate].
  intros _. now apply as_ints_spec.
Qed.
Lemma never_positive_spec r : never_positive (as_macd r) = true ->
  exists l, (exists a b c d sf s0, r = Ok (Tup [a; b; c; d; scalars l], sf, s0)) /\ forall n, flt f0 (nth n l f0) = false.
Proof.
  unfold never_positive. destruct (as_macd r) as [l|] eqn:E; [|discriminate]. intros H. exists l. split; [now apply as_macd_spec|].
  intros n. rewrite forallb_forall in H. destruct (Nat.ltb_spec n (length l)) as [L|L].
  - apply negb_true_iff, H. now apply nth_In.
  - now rewrite nth_overflow.
Qed.
Lemma falling_sigs : list_is (as_ints (call (MovingAverageConvergenceDivergenceSignal 2 1 2) (scalars falling) None true)) [0; 0; -1; 0; 0]%Z = true.
Proof. vm_compute. reflexivity. Qed.
Lemma falling_hist : never_positive (as_macd (call (MovingAverageConvergenceDivergence 2 1 2) (scalars falling) None true)) = true.
Proof. vm_compute. reflexivity. Qed.
Lemma macd_no_crossing :
  exists xs hist sigs a b c d sf1 s01 sf2 s02,
    call (MovingAverageConvergenceDivergence 2 1 2) (scalars xs) None true = Ok (Tup [a; b; c; d; scalars hist], sf1, s01) /\
    call (MovingAverageConvergenceDivergenceSignal 2 1 2) (scalars xs) None true = Ok (ints sigs, sf2, s02) /\
    (forall n, n < length xs -> flt f0 (nth n hist f0) = false) /\
    sigs = [0; 0; -1; 0; 0]%Z.
Proof.
  destruct (list_is_spec _ _ falling_sigs) as (sf2 & s02 & E1).
  destruct (never_positive_spec _ falling_hist) as (l2 & (a & b & c & d & sf1 & s01 & E2) & H2).
  exists falling, l2, [0; 0; -1; 0; 0]%Z, a, b, c, d, sf1, s01, sf2, s02. split; [exact E2|]. split; [exact E1|].
  split; [|reflexivity]. intros n _. apply H2.
Qed.
End Abort.
