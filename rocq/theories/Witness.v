(** * Witness: concrete series used to show that the hypotheses of the property
    theorems are met by non-trivial cases. *)
From Coq Require Import List ZArith Bool.
From Coq Require Import Floats.SpecFloat.
From Verif Require Import Num Py PyFacts Tensor Streamable Spec Meta Common Finance B32.
Import ListNotations.

(** Binary32 arithmetic; the witnesses do not use the logarithm. *)
Definition W : FOps := B32 (fun x => x).
#[export] Existing Instance W.

Definition fz (z : Z) : F := f_of_Z z.
(** A series of scalars, of int32 scalars, of vectors of size [k]. *)
Definition ser (l : list Z) : val := Leaf (mkT [length l] (DF (map fz l))).
Definition iser (l : list Z) : val := Leaf (mkT [length l] (DI l)).
Definition mser (k : nat) (l : list (list Z)) : val :=
  Leaf (mkT [length l; k] (DF (map fz (concat l)))).

(** Deciding genuineness. *)
Fixpoint pyokb {A} (v : pyval A) : bool :=
  match v with
  | Leaf _ => true
  | Tup l | Lst l => forallb pyokb l
  | Dct _ | Gen _ => false
  end.
Definition wfb (t : tensor) : bool := Nat.eqb (dlen (dat t)) (prod (sh t)).
Definition genuineb (v : val) : bool := pyokb v && forallb wfb (leaves v).
Lemma pyokb_ok {A} (v : pyval A) : pyokb v = true -> pyok v.
Proof.
  induction v as [a|l IH|l IH|l IH|l IH] using pyval_ind'; simpl; intros H; try discriminate; auto;
    induction IH as [|x l Hx _ IHl]; simpl in *; auto;
    apply andb_true_iff in H as [H1 H2]; auto.
Qed.
Lemma genuineb_ok v : genuineb v = true -> genuine v.
Proof.
  unfold genuineb, genuine. rewrite andb_true_iff, forallb_forall, Forall_forall. intros [H1 H2].
  split; [now apply pyokb_ok|]. intros t Ht. apply Nat.eqb_eq. now apply H2.
Qed.
Ltac gen := apply genuineb_ok; vm_compute; reflexivity.

(** Deciding [uniform] and [steady_state] by running the operator. *)
Lemma uniform_run {A} (m : val -> A) op st v n s0 o0 s1 i0 os sf z :
  starts_from op st (row 0 v) s0 -> call op (row 0 v) st false = Ok (o0, s1, i0) ->
  steps op s0 (rows n v) = Ok (os, sf) -> m o0 = z -> map m os = repeat z (length os) ->
  uniform m op st v n.
Proof.
  intros Hs Hc Hr Hz Hm. exists z. split.
  - intros o s' i H. congruence.
  - intros s0' os' sf' Hs' Hr'.
    assert (s0' = s0).
    { destruct st as [s|]; simpl in *; [congruence|]. destruct Hs as (? & ? & E), Hs' as (? & ? & E'). congruence. }
    subst. rewrite Hr in Hr'. injection Hr' as <- <-.
    clear -Hm. induction os; simpl in *; constructor; injection Hm; auto.
Qed.
Lemma steady_run op s0 xs :
  (fix go s xs := match xs with
     | [] => sig s = sig s0
     | x :: r => sig s = sig s0 /\
         match call op x (Some s) false with Ok (_, s', _) => go s' r | Err _ => True end
     end) s0 xs -> steady_state op s0 xs.
Proof.
  intros H k os s Hk Hr.
  assert (K : forall xs s1 k os s, k <= length xs ->
    (fix go s xs := match xs with
     | [] => sig s = sig s0
     | x :: r => sig s = sig s0 /\
         match call op x (Some s) false with Ok (_, s', _) => go s' r | Err _ => True end
     end) s1 xs -> steps op s1 (firstn k xs) = Ok (os, s) -> sig s = sig s0).
  { clear. induction xs as [|x xs IH]; intros s1 k os s Hk H Hr.
    - destruct k; simpl in *; injection Hr as <- <-; auto.
    - destruct H as [H1 H2]. destruct k as [|k]; simpl in Hr; [injection Hr as <- <-; auto|].
      apply bind_ok in Hr as ([[o s'] i] & Hc & Hr). rewrite Hc in H2.
      apply bind_ok in Hr as ([os' sf] & Hr & E). injection E as <- <-.
      simpl in Hk. apply (IH s' k os'); auto. apply le_S_n, Hk. }
  eapply K; eauto.
Qed.

(** The running example: SimpleMovingAverage(2) over 1, 2, 4, 8, 16. *)
Definition w_op : operator := SimpleMovingAverage 2.
Definition w_series : val := ser [1; 2; 4; 8; 16]%Z.
Definition w_head : val := ser [1; 2]%Z.
Definition w_tail : val := ser [4; 8; 16]%Z.
Definition ok3 (r : res out3) : out3 := match r with Ok x => x | Err _ => (Tup [], Tup [], Tup []) end.
Definition w_first : out3 := Eval vm_compute in ok3 (call w_op (row 0 w_series) None false).
Definition w_init : val := Eval vm_compute in snd w_first.
Definition w_os : list val := Eval vm_compute in
  match steps w_op w_init (rows 5 w_series) with Ok x => fst x | Err _ => [] end.
Definition w_final : val := Eval vm_compute in
  match steps w_op w_init (rows 5 w_series) with Ok x => snd x | Err _ => Tup [] end.
Lemma w_is_series : is_series 5 w_series.
Proof. split; [discriminate|]. repeat constructor. exists []. reflexivity. Qed.
Lemma w_is_concat : is_concat 2 3 w_head w_tail w_series.
Proof.
  split; [|split; [|split; [exact w_is_series|]]].
  - split; [discriminate|]. repeat constructor. exists []. reflexivity.
  - split; [discriminate|]. repeat constructor. exists []. reflexivity.
  - split; intros i Hi.
    + do 2 (destruct i as [|i]; [reflexivity|]). exfalso. now do 2 apply le_S_n in Hi.
    + do 3 (destruct i as [|i]; [reflexivity|]). exfalso. now do 3 apply le_S_n in Hi.
Qed.
Lemma w_call0 : call w_op (row 0 w_series) None false = Ok (fst (fst w_first), snd (fst w_first), w_init).
Proof. reflexivity. Qed.
Lemma w_starts : starts_from w_op None (row 0 w_series) w_init.
Proof. exists (fst (fst w_first)), (snd (fst w_first)). exact w_call0. Qed.
Lemma w_steps : steps w_op w_init (rows 5 w_series) = Ok (w_os, w_final).
Proof. reflexivity. Qed.
Lemma w_uniform {A} (m : val -> A) :
  map m w_os = repeat (m (fst (fst w_first))) (length w_os) -> uniform m w_op None w_series 5.
Proof.
  intros H. exact (uniform_run m w_op None w_series 5 _ _ _ _ _ _ _ w_starts w_call0 w_steps eq_refl H).
Qed.
Lemma w_uniform_sig : uniform sig w_op None w_series 5.
Proof. apply w_uniform. vm_compute. reflexivity. Qed.
Lemma w_uniform_sk : uniform sk w_op None w_series 5.
Proof. apply w_uniform. vm_compute. reflexivity. Qed.
Lemma w_steady : steady_state w_op w_init (rows 5 w_series).
Proof. apply steady_run. vm_compute. repeat split. Qed.

(** An operator that swaps an int32 and a float32 in its state: its types change. *)
Definition w_swap : operator := Plain (fun args =>
  match args with
  | [x] => Ok (x, Tup [Leaf (fsc f0); Leaf (isc 0)], Tup [Leaf (isc 0); Leaf (fsc f0)])
  | [x; a; b] => Ok (x, Tup [b; a], Tup [a; b])
  | _ => Err EArity
  end).

Definition okb {A} (r : res A) : bool := match r with Ok _ => true | Err _ => false end.
Lemma okb_ex {A} (r : res A) : okb r = true -> exists a, r = Ok a.
Proof. destruct r; [eauto|discriminate]. Qed.
Lemma okb_ex3 (r : res out3) : okb r = true -> exists o s i, r = Ok (o, s, i).
Proof. destruct r as [[[o s] i]|]; [eauto|discriminate]. Qed.
Ltac runs := apply okb_ex; vm_compute; reflexivity.
Lemma w_runs : exists r, call w_op w_series None true = Ok r.
Proof. runs. Qed.
Definition w_mid : val := Eval vm_compute in snd (fst (ok3 (call w_op w_head None true))).
Lemma w_runs_head : exists o i, call w_op w_head None true = Ok (o, w_mid, i).
Proof. do 2 eexists. reflexivity. Qed.
Lemma w_runs_tail : exists r, call w_op w_tail (Some w_mid) true = Ok r.
Proof. runs. Qed.
