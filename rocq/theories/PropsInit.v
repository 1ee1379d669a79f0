(** * PropsInit: property C04 — the returned initial state is the one really used.
    Vocabulary: [wired] and [positional] in Library.v. *)
From Coq Require Import List ZArith Bool.
From Verif Require Import Num Py PyFacts Tensor Streamable Spec Meta Common Finance Library
  GenuineBase InitLib Witness.
Import ListNotations.

(** One step: whatever library operators are combined, if every operator gets as many
    inputs as it declares, giving back the reported initial state changes nothing. *)
Theorem C04_initial_state_is_the_default {N : FOps} op x o s' s0 :
  wired op x -> genuine x ->
  call op x None false = Ok (o, s', s0) -> call op x (Some s0) false = Ok (o, s', s0).
Proof. exact (fun w g => wired_init op x w g o s' s0). Qed.
Print Assumptions C04_initial_state_is_the_default.
(** The same for a whole series. *)
Theorem C04_initial_state_is_the_default_streamed {N : FOps} op v o sf s0 :
  genuine v -> wired op (row 0 v) ->
  call op v None true = Ok (o, sf, s0) -> call op v (Some s0) true = Ok (o, sf, s0).
Proof. exact (wired_init_streamed op v o sf s0). Qed.
Print Assumptions C04_initial_state_is_the_default_streamed.
(** The operators that the library ships as compositions are wired on any tensor. *)
Theorem C04_shipped_compositions {N : FOps} t :
  (forall p, wired (Momentum p) (Leaf t)) /\
  (forall s f, wired (SimpleMovingAverageCrossover s f) (Leaf t)) /\
  (forall s f, wired (SimpleMovingAverageCrossoverSignal s f) (Leaf t)) /\
  (forall s f m, wired (MovingAverageConvergenceDivergenceSignal s f m) (Leaf t)) /\
  (forall m r, wired (Volatility m r) (Leaf t)).
Proof.
  exact (conj (fun p => wired_momentum p t) (conj (fun s f => wired_crossover s f t)
    (conj (fun s f => wired_crossover_signal s f t) (conj (fun s f m => wired_macd_signal s f m t)
      (fun m r => wired_volatility m r t))))).
Qed.
Print Assumptions C04_shipped_compositions.
Example C04_met :
  let op := Join [FFill (SimpleMovingAverage 2); Compose [ExponentialMovingAverage 3; Lag 1]] in
  let v := Tup [ser [1; 2; 0; 4]%Z; ser [1; 2; 3; 4]%Z] in
  genuine v /\ wired op (row 0 v) /\ exists r, call op v None true = Ok r.
Proof.
  cbv zeta. split; [gen|]. split; [|runs].
  eapply wired_join; [|reflexivity|].
  - apply Forall_cons; [apply lib_ffill, lib_basic, lib_sma|]. apply Forall_cons; [|constructor].
    apply lib_compose. apply Forall_cons; [apply lib_basic, lib_ema|]. apply Forall_cons; [apply lib_basic, lib_lag|constructor].
  - apply wired_more; [apply wired_ffill; [apply lib_basic, lib_sma|eapply wired_step; [constructor|reflexivity]]|].
    apply wired_more; [|apply wired_none; auto].
    apply wired_compose; [apply Forall_cons; [apply lib_basic, lib_ema|]; apply Forall_cons; [apply lib_basic, lib_lag|constructor]|].
    cbn [rev app]. apply wired_cons; [eapply wired_step; [constructor|reflexivity]|].
    intros o s i H. apply wired_cons; [|intros; apply wired_nil].
    eapply wired_step; [constructor|]. rewrite StreamFacts.call_false in H; [|exact I|discriminate].
    cbn [forward_step Lag] in H. unfold lag_step in H. binv H. reflexivity.
Qed.
(** Without [wired] the property fails: a surplus input is taken for a state. *)
Theorem C04_refuted_with_surplus_inputs : exists op x o s' s0,
  library op /\ genuine x /\ call op x None false = Ok (o, s', s0) /\
  call op x (Some s0) false = Err EArity.
Proof.
  exists (SimpleMovingAverage 2), (Tup [Leaf (fsc (fz 1)); Leaf (isc 0)]). do 3 eexists.
  split; [apply lib_basic, lib_sma|]. split; [gen|]. split; reflexivity.
Qed.
Print Assumptions C04_refuted_with_surplus_inputs.
