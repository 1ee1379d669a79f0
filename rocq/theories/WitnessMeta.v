(** * WitnessMeta: concrete cases for Compose, Join and Map. *)
From Coq Require Import List ZArith Bool.
From Verif Require Import Num Py PyFacts Tensor Streamable Spec SpecMeta Meta Common Finance B32 Library GenuineBase
  GenuineLib Witness.
Import ListNotations.

Definition m_series : val := w_series.
Definition m_second : val := ser [3; 1; 4; 1; 5]%Z.
Definition m_ops : list operator := [ExponentialMovingAverage 3; Lag 1; SimpleMovingAverage 2].
Lemma m_ops_genuine : Forall genuine_op m_ops.
Proof.
  unfold m_ops. 
  apply Forall_cons; [apply library_genuine, lib_basic, lib_ema|].
  apply Forall_cons; [apply library_genuine, lib_basic, lib_lag|].
  apply Forall_cons; [apply library_genuine, lib_basic, lib_sma|]. constructor.
Qed.
Definition m_one : out3 := Eval vm_compute in ok3 (call (SimpleMovingAverage 2) m_series None true).
Definition m_two : out3 := Eval vm_compute in ok3 (call (Lag 1) (fst (fst m_one)) None true).
Definition m_three : out3 := Eval vm_compute in ok3 (call (ExponentialMovingAverage 3) (fst (fst m_two)) None true).
Definition m_out : val := fst (fst m_three).
Definition m_states : list val := [snd (fst m_one); snd (fst m_two); snd (fst m_three)].
Definition m_inits : list val := [snd m_one; snd m_two; snd m_three].
Definition m_first2 : out3 := Eval vm_compute in ok3 (call (Lag 1) (row 0 (fst (fst m_one))) None false).
Definition m_steps2 : list val * val := Eval vm_compute in
  match steps (Lag 1) (snd m_first2) (rows 5 (fst (fst m_one))) with Ok x => x | Err _ => ([], Tup []) end.
Lemma m_call1 : call (SimpleMovingAverage 2) m_series None true = Ok (fst (fst m_one), snd (fst m_one), snd m_one).
Proof. vm_cast_no_check (@eq_refl (res out3) (Ok (fst (fst m_one), snd (fst m_one), snd m_one))). Qed.
Lemma m_call2 : call (Lag 1) (fst (fst m_one)) None true = Ok (fst (fst m_two), snd (fst m_two), snd m_two).
Proof. vm_cast_no_check (@eq_refl (res out3) (Ok (fst (fst m_two), snd (fst m_two), snd m_two))). Qed.
Lemma m_call3 : call (ExponentialMovingAverage 3) (fst (fst m_two)) None true = Ok (m_out, snd (fst m_three), snd m_three).
Proof. vm_cast_no_check (@eq_refl (res out3) (Ok (m_out, snd (fst m_three), snd m_three))). Qed.
Lemma m_start2 : call (Lag 1) (row 0 (fst (fst m_one))) None false = Ok (fst (fst m_first2), snd (fst m_first2), snd m_first2).
Proof. vm_cast_no_check (@eq_refl (res out3) (Ok (fst (fst m_first2), snd (fst m_first2), snd m_first2))). Qed.
Lemma m_loop2 : steps (Lag 1) (snd m_first2) (rows 5 (fst (fst m_one))) = Ok (fst m_steps2, snd m_steps2).
Proof. vm_cast_no_check (@eq_refl (res (list val * val)) (Ok (fst m_steps2, snd m_steps2))). Qed.
Lemma m_again2 : call (Lag 1) (row 0 (fst (fst m_one))) (Some (snd m_first2)) false = Ok (fst (fst m_first2), snd (fst m_first2), snd m_first2).
Proof. vm_cast_no_check (@eq_refl (res out3) (Ok (fst (fst m_first2), snd (fst m_first2), snd m_first2))). Qed.
Lemma m_again1 : call w_op (row 0 w_series) (Some w_init) false = Ok (fst (fst w_first), snd (fst w_first), w_init).
Proof. vm_cast_no_check (@eq_refl (res out3) (Ok (fst (fst w_first), snd (fst w_first), w_init))). Qed.
Lemma m_skel : map sk (fst m_steps2) = repeat (sk (fst (fst m_first2))) (length (fst m_steps2)).
Proof. vm_cast_no_check (@eq_refl _ (repeat (sk (fst (fst m_first2))) (length (fst m_steps2)))). Qed.
Lemma m_in_turn :
  streamed_in_turn 5 (rev m_ops) m_series (states_for (length m_ops) None) m_out m_states m_inits.
Proof.
  apply streamed_next with (mid := fst (fst m_one)); [exact m_call1| |].
  { split; [exact w_is_series|]. split; [exact w_uniform_sk|]. split; [discriminate|].
    intros _ o s' s0 H. assert (E : Ok (o, s', s0) = Ok (fst (fst w_first), snd (fst w_first), w_init)) by exact (eq_trans (eq_sym H) w_call0). injection E as -> -> ->. exact m_again1. }
  apply streamed_next with (mid := fst (fst m_two)); [exact m_call2| |].
  { split; [split; [discriminate|repeat constructor; exists []; reflexivity]|].
    split.
    { refine (uniform_run sk (Lag 1) None (fst (fst m_one)) 5 _ _ _ _ _ _ _ _ m_start2 m_loop2 eq_refl m_skel).
      exists (fst (fst m_first2)), (snd (fst m_first2)). exact m_start2. }
    split; [discriminate|]. intros _ o s' s0 H. assert (E : Ok (o, s', s0) = Ok (fst (fst m_first2), snd (fst m_first2), snd m_first2)) by exact (eq_trans (eq_sym H) m_start2). injection E as -> -> ->. exact m_again2. }
  apply streamed_last; [|exact m_call3].
  split; [discriminate|]. repeat constructor; exists []; reflexivity.
Qed.
Definition outputs_are (k : nat) (r : res out3) : bool :=
  match r with Ok (Tup l, _, _) => Nat.eqb (length l) k | _ => false end.
Lemma outputs_are_ok k r : outputs_are k r = true -> exists l s i, length l = k /\ r = Ok (Tup l, s, i).
Proof.
  destruct r as [[[[?|l|?|?|?] s] i]|]; simpl; try discriminate. intros H. apply Nat.eqb_eq in H. eauto.
Qed.
Ltac outputs := apply outputs_are_ok; vm_compute; reflexivity.
