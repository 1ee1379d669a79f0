(** * OrderFacts: crossing signals and extrema, for every orderly arithmetic. *)
From Coq Require Import Lia List ZArith Bool.
From Verif Require Import Num Series Formulas ImplSignal Order.
Import ListNotations.

Section OrderFacts.
Context {N : FOps} {usable : F -> Prop} (O : orderly N usable).

Lemma lt_asym x y : flt x y = true -> flt y x = false.
Proof.
  intros H. destruct (flt y x) eqn:E; [|reflexivity].
  pose proof (o_trans _ _ O _ _ _ H E) as K. rewrite (o_irrefl _ _ O) in K. discriminate.
Qed.
Lemma zc_dir_side h : h <> [] -> Forall usable h -> zc_dir h = f_of_Z (if side h then 1 else -1).
Proof.
  induction h as [|x h IH]; intros NE H; [easy|]. inversion H as [|? ? Hx Hh]; subst.
  destruct h as [|y h].
  - cbn [zc_dir side]. rewrite (o_sgn _ _ O) by exact Hx. destruct (flt x f0) eqn:E; [reflexivity|].
    destruct (flt f0 x); reflexivity.
  - specialize (IH ltac:(discriminate) Hh). cbn [zc_dir] in *. set (h' := y :: h) in *.
    change (side (x :: h')) with (if flt x f0 then false else if flt f0 x then true else side h').
    rewrite IH. unfold crossed. rewrite (o_nonzero _ _ O) by exact Hx.
    destruct (side h').
    + rewrite (o_keep _ _ O) by exact Hx. destruct (flt x f0) eqn:E; cbn.
      * apply (o_neg1 _ _ O).
      * destruct (flt f0 x); reflexivity.
    + rewrite (o_flip _ _ O) by exact Hx. destruct (flt x f0) eqn:E; cbn.
      * rewrite (lt_asym _ _ E). reflexivity.
      * destruct (flt f0 x); cbn; [apply (o_neg _ _ O)|reflexivity].
Qed.
Lemma zc_sig_crossing h : Forall usable h -> f_to_Z (zc_sig h) = crossing h.
Proof.
  intros H. destruct h as [|x [|y h]]; [apply (o_cast0 _ _ O)..|].
  inversion H as [|? ? Hx Hh]; subst. cbn [zc_sig crossing]. set (h' := y :: h) in *.
  change (side (x :: h')) with (if flt x f0 then false else if flt f0 x then true else side h').
  rewrite zc_dir_side by (subst h'; easy). unfold crossed. rewrite (o_nonzero _ _ O) by exact Hx.
  destruct (side h').
  - rewrite (o_keep _ _ O) by exact Hx. destruct (flt x f0) eqn:E; cbn.
    + rewrite (o_neg1 _ _ O). apply (o_cast_1 _ _ O).
    + destruct (flt f0 x); apply (o_cast0 _ _ O).
  - rewrite (o_flip _ _ O) by exact Hx. destruct (flt x f0) eqn:E; cbn.
    + rewrite (lt_asym _ _ E). apply (o_cast0 _ _ O).
    + destruct (flt f0 x); cbn; [rewrite (o_neg _ _ O); apply (o_cast1 _ _ O)|apply (o_cast0 _ _ O)].
Qed.

(** ** Extrema *)
Lemma running_min h : h <> [] -> In (running flt h) h /\ forall x, In x h -> flt x (running flt h) = false.
Proof.
  induction h as [|x h IH]; intros NE; [easy|]. destruct h as [|y h].
  - cbn. split; [now left|]. intros z [<-|[]]. apply (o_irrefl _ _ O).
  - destruct IH as [I1 I2]; [discriminate|]. cbn [running] in *. set (m := running flt (y :: h)) in *.
    change (match h with [] => y | _ :: _ => if flt y (running flt h) then y else running flt h end) with m in *.
    destruct (flt x m) eqn:E.
    + split; [now left|]. intros z [<-|Hz]; [apply (o_irrefl _ _ O)|].
      destruct (flt z x) eqn:L; [|reflexivity]. specialize (I2 z Hz). rewrite (o_trans _ _ O _ _ _ L E) in I2. discriminate.
    + split; [now right|]. intros z [<-|Hz]; auto.
Qed.
Lemma running_max h : h <> [] -> In (running fgt h) h /\ forall x, In x h -> flt (running fgt h) x = false.
Proof.
  unfold fgt. induction h as [|x h IH]; intros NE; [easy|]. destruct h as [|y h].
  - cbn. split; [now left|]. intros z [<-|[]]. apply (o_irrefl _ _ O).
  - destruct IH as [I1 I2]; [discriminate|]. cbn [running] in *. set (m := running (fun u v => flt v u) (y :: h)) in *.
    change (match h with [] => y | _ :: _ => if flt (running (fun u v => flt v u) h) y then y else running (fun u v => flt v u) h end) with m in *.
    destruct (flt m x) eqn:E.
    + split; [now left|]. intros z [<-|Hz]; [apply (o_irrefl _ _ O)|].
      destruct (flt x z) eqn:L; [|reflexivity]. specialize (I2 z Hz). rewrite (o_trans _ _ O _ _ _ E L) in I2. discriminate.
    + split; [now right|]. intros z [<-|Hz]; auto.
Qed.
End OrderFacts.

(** ** Laws of the crossing signal *)
Section Crossing.
Context {N : FOps}.
Lemma crossing_values h : crossing h = 1%Z \/ crossing h = 0%Z \/ crossing h = (-1)%Z.
Proof. destruct h as [|x [|y h]]; cbn [crossing]; auto. destruct (Bool.eqb _ _); auto. destruct (side _); auto. Qed.
Lemma crossing_side h : crossing h <> 0%Z -> crossing h = if side h then 1%Z else (-1)%Z.
Proof.
  destruct h as [|x [|y h]]; cbn [crossing]; try easy. destruct (Bool.eqb _ _); [easy|]. reflexivity.
Qed.
Lemma crossing_zero x h : h <> [] -> crossing (x :: h) = 0%Z -> side (x :: h) = side h.
Proof.
  destruct h as [|y h]; [easy|]. intros _. cbn [crossing]. destruct (Bool.eqb _ _) eqn:E.
  - intros _. now apply eqb_prop.
  - destruct (side (x :: y :: h)); discriminate.
Qed.
Lemma crossing_nonzero x h : h <> [] -> crossing (x :: h) <> 0%Z -> side h = negb (side (x :: h)).
Proof.
  destruct h as [|y h]; [easy|]. intros _. cbn [crossing]. destruct (Bool.eqb _ _) eqn:E; [easy|].
  intros _. apply eqb_false_iff in E. destruct (side (x :: y :: h)), (side (y :: h)); easy.
Qed.
(** A nonzero signal is emitted only at a value that is strictly on the new side. *)
Lemma crossing_sign x h : crossing (x :: h) <> 0%Z ->
  (crossing (x :: h) = 1%Z /\ flt f0 x = true) \/ (crossing (x :: h) = (-1)%Z /\ flt x f0 = true).
Proof.
  intros H. pose proof (crossing_side _ H) as S. destruct h as [|y h]; [easy|].
  pose proof (crossing_nonzero x (y :: h) ltac:(discriminate) H) as K. rewrite S.
  change (side (x :: y :: h)) with (if flt x f0 then false else if flt f0 x then true else side (y :: h)) in *.
  destruct (flt x f0); [right; auto|]. destruct (flt f0 x); [left; auto|]. destruct (side (y :: h)); discriminate.
Qed.
Lemma side_quiet g h : h <> [] ->
  (forall u v, g = u ++ v -> v <> [] -> crossing (v ++ h) = 0%Z) -> side (g ++ h) = side h.
Proof.
  intros NE. induction g as [|x g IH]; intros H; [reflexivity|]. cbn [app].
  rewrite crossing_zero; [|destruct g; [exact NE|discriminate]|apply (H [] (x :: g)); [reflexivity|discriminate]].
  apply IH. intros u v -> Hv. apply (H (x :: u) v); [reflexivity|exact Hv].
Qed.
(** Consecutive nonzero signals are opposite: [h], then silence over [g], then [x]. *)
Lemma crossing_alternates x g h : crossing h <> 0%Z -> crossing (x :: g ++ h) <> 0%Z ->
  (forall u v, g = u ++ v -> v <> [] -> crossing (v ++ h) = 0%Z) -> crossing (x :: g ++ h) = (- crossing h)%Z.
Proof.
  intros H1 H2 Q. assert (NE : h <> []) by (intros ->; now apply H1).
  rewrite (crossing_side _ H1), (crossing_side _ H2).
  apply crossing_nonzero in H2; [|destruct g; [exact NE|discriminate]].
  rewrite side_quiet in H2 by assumption. rewrite H2. destruct (side (x :: g ++ h)); reflexivity.
Qed.
End Crossing.
