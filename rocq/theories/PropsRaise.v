(** * PropsRaise: property C79 — an operator that cannot answer stops the whole call.
    Vocabulary: Spec.v and Raise.v. *)
From Coq Require Import List ZArith Bool Lia.
From Verif Require Import Num Py PyFacts Tensor Streamable Spec Meta Common Finance Raise RaiseFacts
  GenuineLib StreamProofs Witness.
Import ListNotations.

(** The base class defines no step: every call of it raises, "Not implemented." *)
Theorem C79_base {N : FOps} : never_answers base_streamable /\
  forall v st, genuine v -> genuine_opt st -> call base_streamable v st false = Err ENotImpl.
Proof. exact (conj base_never base_not_implemented). Qed.
Print Assumptions C79_base.

(** Streaming: an error at the first element, or at any later one from the state the
    elements before it leave, is an error of the whole call. *)
Theorem C79_first_step {N : FOps} op v st n :
  genuine v -> genuine_opt st -> genuine_op op -> is_series n v ->
  raises (call op (row 0 v) st false) -> raises (call op v st true).
Proof. exact (first_step_raises op v st n). Qed.
Print Assumptions C79_first_step.
Theorem C79_later_step {N : FOps} op v st n s0 i os s :
  genuine v -> genuine_opt st -> genuine_op op -> is_series n v -> i < n ->
  starts_from op st (row 0 v) s0 -> steps op s0 (rows i v) = Ok (os, s) ->
  raises (call op (row i v) (Some s) false) -> raises (call op v st true).
Proof. exact (later_step_raises op v st n s0 i os s). Qed.
Print Assumptions C79_later_step.
(** An operator that accepts two elements and raises on the third. *)
Definition w_tired : operator := Plain (fun args =>
  match args with
  | [x] => Ok (x, Leaf (isc 1), Leaf (isc 0))
  | [x; Leaf a] => match dat a with
      | DI [z] => if Z.ltb z 2 then Ok (x, Leaf (isc (z + 1)), Leaf a) else Err EAssert
      | _ => Err EType end
  | _ => Err EArity
  end).
Lemma w_tired_genuine : genuine_op w_tired.
Proof.
  intros x st o s' i Gx Gs H. cbn [forward_step w_tired] in H.
  assert (G1 : forall z, genuine (Leaf (isc z))) by (intros z; split; [exact I|repeat constructor]).
  assert (Gxs : Forall genuine match x with Tup l | Lst l => l | _ => [x] end).
  { destruct Gx as [P W]. destruct x as [t|l|l|l|l]; try (constructor; [split; assumption|constructor]).
    - apply pyok_tup in P. cbn [leaves] in W. clear -P W. induction l; [constructor|]. inversion P; subst. simpl in W.
      apply Forall_app in W as [W1 W2]. constructor; [now split|auto].
    - apply pyok_lst in P. cbn [leaves] in W. clear -P W. induction l; [constructor|]. inversion P; subst. simpl in W.
      apply Forall_app in W as [W1 W2]. constructor; [now split|auto]. }
  assert (Gss : Forall genuine match st with None => [] | Some (Tup l) | Some (Lst l) => l | Some s => [s] end).
  { destruct st as [x'|]; [|constructor]. simpl in Gs. clear -Gs.
    destruct Gs as [P W]. destruct x' as [t|l|l|l|l]; try (constructor; [split; assumption|constructor]).
    - apply pyok_tup in P. cbn [leaves] in W. induction l; [constructor|]. inversion P; subst. simpl in W.
      apply Forall_app in W as [W1 W2]. constructor; [now split|auto].
    - apply pyok_lst in P. cbn [leaves] in W. induction l; [constructor|]. inversion P; subst. simpl in W.
      apply Forall_app in W as [W1 W2]. constructor; [now split|auto]. }
  pose proof (conj Gxs Gss) as G. rewrite <- Forall_app in G. clear Gxs Gss Gx Gs. revert G H.
  match goal with |- context [Forall genuine ?l] => generalize l end. intros l G H.
  destruct l as [|a [|[b|?|?|?|?] [|? ?]]]; try discriminate H.
  - injection H as <- <- <-. inversion G; subst. auto.
  - destruct (dat b) as [|[|z [|]]|]; try discriminate H. destruct (Z.ltb z 2); [|discriminate H].
    injection H as <- <- <-. inversion G as [|? ? G1' G2]; subst. inversion G2; subst. auto.
Qed.
Lemma okb_raises {A} (r : res A) : okb r = false -> raises r.
Proof. destruct r; [discriminate|]. intros _. eexists. reflexivity. Qed.
Example C79_steps_met : genuine w_series /\ genuine_op w_tired /\ is_series 5 w_series /\
  (exists s0 os s, starts_from w_tired None (row 0 w_series) s0 /\
     steps w_tired s0 (rows 2 w_series) = Ok (os, s) /\
     raises (call w_tired (row 2 w_series) (Some s) false)) /\
  raises (call w_tired w_series None true).
Proof.
  split; [gen|]. split; [exact w_tired_genuine|]. split; [exact w_is_series|]. split.
  - eexists _, _, _. split; [eexists _, _; reflexivity|]. split; [reflexivity|].
    apply okb_raises; vm_compute; reflexivity.
  - apply okb_raises; vm_compute; reflexivity.
Qed.

(** Put together with others, such an operator stops all of them: in a composition, with
    no state or with one state for each operator; ... *)
Theorem C79_compose {N : FOps} ops op v st b :
  In op ops -> never_answers op -> states_for (length ops) st ->
  raises (call (Compose ops) v st b).
Proof. intros H1 H2 H3. exact (compose_never ops op H1 H2 v st b H3). Qed.
Print Assumptions C79_compose.
(** ... one stage that raises on what the stages before it hand over is enough, and its
    error is the error of the call (the last operator of the list is the first to run); *)
Theorem C79_compose_stage {N : FOps} outer op inner x o s i e :
  inner <> [] -> pyok x -> call (Compose inner) x None false = Ok (o, s, i) ->
  call op o None false = Err e ->
  call (Compose (outer ++ op :: inner)) x None false = Err e.
Proof. exact (compose_stage outer op inner x o s i e). Qed.
Print Assumptions C79_compose_stage.
Theorem C79_compose_first {N : FOps} outer op x e : pyok x -> call op x None false = Err e ->
  call (Compose (outer ++ [op])) x None false = Err e.
Proof. exact (compose_innermost outer op x e). Qed.
Print Assumptions C79_compose_first.
(** in a Join that has an input for it; mapped over an axis; under FFill, on missing data
    too. *)
Theorem C79_join {N : FOps} ops op k ins st b :
  nth_error ops k = Some op -> never_answers op -> k < length ins -> states_for (length ops) st ->
  raises (call (Join ops) (Tup ins) st b).
Proof. intros H1 H2 H3 H4. exact (join_never ops op k H1 H2 ins st b H3 H4). Qed.
Print Assumptions C79_join.
Theorem C79_map {N : FOps} op size : never_answers op -> never_answers (Map op size).
Proof. exact (map_never op size). Qed.
Print Assumptions C79_map.
Theorem C79_ffill {N : FOps} op : never_answers op -> never_answers (FFill op).
Proof. exact (ffill_never op). Qed.
Print Assumptions C79_ffill.
Example C79_met : never_answers (FFill (Map base_streamable 3)) /\
  (exists r, call (Compose [Lag 1; Lag 2]) (ser [1; 2; 3]%Z) None true = Ok r) /\
  raises (call (Compose [Lag 1; base_streamable; Lag 2]) (ser [1; 2; 3]%Z) None true) /\
  (exists r, call (Join [Lag 1; Lag 2]) (Tup [ser [1; 2; 3]%Z; ser [4; 5; 6]%Z]) None true = Ok r) /\
  raises (call (Join [Lag 1; base_streamable]) (Tup [ser [1; 2; 3]%Z; ser [4; 5; 6]%Z]) None true).
Proof.
  split; [apply ffill_never, map_never, base_never|].
  split; [runs|].
  split; [apply (C79_compose _ base_streamable); [simpl; auto|apply C79_base|exact I]|].
  split; [runs|].
  apply (C79_join _ base_streamable 1); [reflexivity|apply C79_base|simpl; lia|exact I].
Qed.

(** With fewer states than operators the claim is false: the composition silently leaves
    out the operators that have no state, here one that cannot answer. *)
Theorem C79_short_states_refuted : exists ops op v st r,
  In op ops /\ never_answers op /\ genuine v /\ genuine (Tup st) /\ length st < length ops /\
  call (Compose ops) v (Some (Tup st)) true = Ok r.
Proof.
  exists [base_streamable; Lag 1], base_streamable, (ser [1; 2; 3]%Z), [Leaf (mkT [1] (DF [fz 7]))].
  assert (E : exists r, call (Compose [base_streamable; Lag 1]) (ser [1; 2; 3]%Z) (Some (Tup [Leaf (mkT [1] (DF [fz 7]))])) true = Ok r) by runs.
  destruct E as (r & E). exists r. split; [simpl; auto|]. split; [apply C79_base|].
  split; [gen|]. split; [gen|]. split; [simpl; lia|exact E].
Qed.
Print Assumptions C79_short_states_refuted.
