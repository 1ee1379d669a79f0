(** * TwiceFacts: extrema of extrema (C85), in exact arithmetic. *)
From Coq Require Import Reals Lra List ZArith Bool Lia.
From Verif Require Import Num Py Tensor Streamable Common Finance Meta Series Formulas Positions ER Linear RealFacts Shapes ShapeFacts Algebra AlgebraFacts VectorFacts
  Agree AgreeFacts SwappedFacts Fading FadingFacts WrongExtrema.
Import ListNotations.
Local Open Scope R_scope.

(** ** Pipelines of two operators *)
Lemma reals_vhas xs : @vhas ER (reals xs) (wide (length xs) (tf [])).
Proof.
  unfold reals, scalars, tf. apply (@vhas_leaf ER). split; [|split; [cbn; now rewrite map_length|reflexivity]]. unfold wf, prod. cbn. change (@F ER) with ext. rewrite !map_length. lia.
Qed.
Lemma compose_outputs a b xs u v : fits a (tf []) (tf []) -> fits b (tf []) (tf []) -> xs <> [] -> outputs a xs u -> outputs b u v -> outputs (Compose [b; a]) xs v.
Proof.
  intros Fa Fb NE (La & sa & ia & A) (Lb & sb & ib & B). split; [congruence|].
  assert (G : @give_in_turn ER [a; b] (reals xs) (reals v)) by (eapply give_next; [exists sa, ia; exact A|constructor; exists sb, ib; exact B]).
  assert (Lp : (length xs > 0)%nat) by (destruct xs; [easy|cbn; lia]).
  apply (@compose_turn ER [a; b] (tf []) (tf []) (length xs) _ _ (fit_next _ _ _ _ _ Fa (fit_last _ _ _ Fb)) Lp (reals_vhas xs)) in G. destruct G as (sf & s0 & E). exists sf, s0. exact E.
Qed.
Lemma fits_lmax p : (1 <= p)%nat -> @fits ER (LocalMaximum (Z.of_nat p)) (tf []) (tf []).
Proof. intros Hp. eapply fits_takes; [apply tk_local_max; lia|discriminate|reflexivity]. Qed.
Lemma fits_lmin p : (1 <= p)%nat -> @fits ER (LocalMinimum (Z.of_nat p)) (tf []) (tf []).
Proof. intros Hp. eapply fits_takes; [apply tk_local_min; lia|discriminate|reflexivity]. Qed.
Lemma fits_gmax : @fits ER GlobalMaximum (tf []) (tf []).
Proof. eapply fits_takes; [apply tk_global_max; discriminate|discriminate|reflexivity]. Qed.
Lemma fits_gmin : @fits ER GlobalMinimum (tf []) (tf []).
Proof. eapply fits_takes; [apply tk_global_min; discriminate|discriminate|reflexivity]. Qed.

(** ** Extrema by position *)
(** [rel y z] reads: [z] is at least as extreme as [y]. *)
Definition best (rel : R -> R -> Prop) (p : nat) (l : list R) (m : nat) (y : R) : Prop :=
  (exists i, (i < p)%nat /\ (i <= m)%nat /\ y = at_pos l (m - i)) /\ forall i, (i < p)%nat -> (i <= m)%nat -> rel (at_pos l (m - i)) y.
Lemma in_window p (l : list R) m x : (m < length l)%nat -> In x (firstn p (upto m l)) <-> exists i, (i < p)%nat /\ (i <= m)%nat /\ x = at_pos l (m - i).
Proof.
  intros M. assert (Lu := upto_length m l M). split.
  - intros H. apply (In_nth _ _ 0) in H. destruct H as (i & Hi & E). rewrite firstn_length, Lu in Hi. exists i. split; [lia|]. split; [lia|]. rewrite <- E. unfold at_pos. rewrite <- (nth_upto m i l 0) by lia.
    rewrite <- (firstn_skipn p (upto m l)) at 2. symmetry. apply app_nth1. rewrite firstn_length. lia.
  - intros (i & H1 & H2 & E). subst x. unfold at_pos. rewrite <- (nth_upto m i l 0) by lia. rewrite <- (firstn_skipn p (upto m l)) at 1.
    rewrite app_nth1 by (rewrite firstn_length; lia). apply nth_In. rewrite firstn_length. lia.
Qed.
Lemma best_of (rel : R -> R -> Prop) p l m y : (m < length l)%nat -> In y (firstn p (upto m l)) -> (forall x, In x (firstn p (upto m l)) -> rel x y) -> best rel p l m y.
Proof. intros M I H. split; [now apply (in_window p l m y M)|]. intros i H1 H2. apply H. apply (in_window p l m _ M). now exists i. Qed.
Lemma lmax_best p xs : (1 <= p)%nat -> (Z.of_nat p < 2147483648)%Z -> countable xs -> exists out, outputs (LocalMaximum (Z.of_nat p)) xs out /\ forall m, (m < length xs)%nat -> best Rle p xs m (at_pos out m).
Proof.
  intros Hp Hb C. destruct (lmax_outputs xs C p Hp Hb) as (g & G & O). eexists. split; [exact O|]. clear O C Hb. intros m M. rewrite run_at by exact M.
  destruct (G (firstn p (upto m xs))) as [A B]; [apply window_full; [exact Hp|now apply upto_some]|]. now apply best_of.
Qed.
Lemma lmin_best p xs : (1 <= p)%nat -> (Z.of_nat p < 2147483648)%Z -> countable xs -> exists out, outputs (LocalMinimum (Z.of_nat p)) xs out /\ forall m, (m < length xs)%nat -> best Rge p xs m (at_pos out m).
Proof.
  intros Hp Hb C. destruct (lmin_outputs xs C p Hp Hb) as (g & G & O). eexists. split; [exact O|]. clear O C Hb. intros m M. rewrite run_at by exact M.
  destruct (G (firstn p (upto m xs))) as [A B]; [apply window_full; [exact Hp|now apply upto_some]|]. apply best_of; [exact M|exact A|]. intros x Hx. now apply Rle_ge, B.
Qed.
Lemma all_upto m (l : list R) : (m < length l)%nat -> firstn (S m) (upto m l) = upto m l.
Proof. intros M. apply firstn_all2. now rewrite upto_length. Qed.
Lemma gmax_best xs : countable xs -> exists out, outputs GlobalMaximum xs out /\ forall m, (m < length xs)%nat -> best Rle (S m) xs m (at_pos out m).
Proof.
  intros C. destruct (gmax_outputs xs C) as (g & G & O). eexists. split; [exact O|]. clear O C. intros m M. rewrite run_at by exact M.
  destruct (G (upto m xs)) as [A B]; [now apply upto_some|]. apply best_of; rewrite ?all_upto by exact M; assumption.
Qed.
Lemma gmin_best xs : countable xs -> exists out, outputs GlobalMinimum xs out /\ forall m, (m < length xs)%nat -> best Rge (S m) xs m (at_pos out m).
Proof.
  intros C. destruct (gmin_outputs xs C) as (g & G & O). eexists. split; [exact O|]. clear O C. intros m M. rewrite run_at by exact M.
  destruct (G (upto m xs)) as [A B]; [now apply upto_some|]. apply best_of; rewrite ?all_upto by exact M; try assumption. intros x Hx. now apply Rle_ge, B.
Qed.
(** The best of the bests. *)
Definition order (rel : R -> R -> Prop) : Prop := (forall x y z, rel x y -> rel y z -> rel x z) /\ (forall x y, rel x y -> rel y x -> x = y).
Lemma le_order : order Rle.
Proof. split; [intros x y z; lra|intros x y; lra]. Qed.
Lemma ge_order : order Rge.
Proof. split; [intros x y z; lra|intros x y; lra]. Qed.
Lemma best_one rel p l m y z : order rel -> best rel p l m y -> best rel p l m z -> y = z.
Proof. intros [_ A] [(i & H1 & H2 & E) H] [(j & K1 & K2 & F) K]. apply A; [rewrite E; now apply K|rewrite F; now apply H]. Qed.
Lemma best_best rel (P Q : nat -> nat) l a m y k : order rel -> (m < length l)%nat -> (forall j, (j <= m)%nat -> best rel (P j) l j (at_pos a j)) -> best rel (Q m) a m y ->
  (forall i j, (i < Q m)%nat -> (i <= m)%nat -> (j < P (m - i))%nat -> (i + j <= m)%nat -> (i + j < k)%nat) ->
  (forall s, (s < k)%nat -> (s <= m)%nat -> exists i, (i < Q m)%nat /\ (i <= s)%nat /\ (s - i < P (m - i))%nat) -> best rel k l m y.
Proof.
  intros [T _] M A [(i & H1 & H2 & E) H] I J. split.
  - destruct (A (m - i)%nat ltac:(lia)) as [(j & K1 & K2 & F) _]. exists (i + j)%nat. split; [apply I; lia|]. split; [lia|]. rewrite E, F. f_equal. lia.
  - intros s S1 S2. destruct (J s S1 S2) as (u & U1 & U2 & U3). apply T with (at_pos a (m - u)); [|apply H; lia]. destruct (A (m - u)%nat ltac:(lia)) as [_ B]. replace (m - s)%nat with (m - u - (s - u))%nat by lia. apply B; lia.
Qed.
Lemma countable_out op xs a : countable xs -> outputs op xs a -> countable a.
Proof. intros [NE S] (L & _). split; [intros ->; apply NE; now destruct xs|now rewrite L]. Qed.

(** ** The theorems *)
Lemma twice_core rel (P Q K : nat -> nat) xs a b c : order rel -> (forall m, (m < length xs)%nat -> best rel (P m) xs m (at_pos a m)) -> (forall m, (m < length xs)%nat -> best rel (Q m) a m (at_pos b m)) ->
  (forall m, (m < length xs)%nat -> best rel (K m) xs m (at_pos c m)) -> length b = length xs -> length c = length xs ->
  (forall m i j, (i < Q m)%nat -> (i <= m)%nat -> (j < P (m - i))%nat -> (i + j <= m)%nat -> (i + j < K m)%nat) ->
  (forall m s, (s < K m)%nat -> (s <= m)%nat -> exists i, (i < Q m)%nat /\ (i <= s)%nat /\ (s - i < P (m - i))%nat) -> b = c.
Proof.
  intros O A B C Lb Lc I J. apply (nth_ext _ _ 0 0); [congruence|]. intros m M. rewrite Lb in M. apply (best_one rel (K m) xs m); [exact O| |now apply C].
  apply (best_best rel P Q xs a); [exact O|exact M|intros j Hj; apply A; lia|now apply B|apply I|apply J].
Qed.
Theorem local_twice p q xs : (1 <= p)%nat -> (1 <= q)%nat -> (Z.of_nat (p + q) < 2147483648)%Z -> countable xs ->
  exists high low, outputs (LocalMaximum (Z.of_nat (p + q - 1))) xs high /\ outputs (Compose [LocalMaximum (Z.of_nat q); LocalMaximum (Z.of_nat p)]) xs high /\
    outputs (LocalMinimum (Z.of_nat (p + q - 1))) xs low /\ outputs (Compose [LocalMinimum (Z.of_nat q); LocalMinimum (Z.of_nat p)]) xs low.
Proof.
  intros Hp Hq Hb C. assert (NE := proj1 C). assert (Bp : (Z.of_nat p < 2147483648)%Z) by lia. assert (Bq : (Z.of_nat q < 2147483648)%Z) by lia. assert (Bk : (Z.of_nat (p + q - 1) < 2147483648)%Z) by lia. clear Hb.
  destruct (lmax_best p xs Hp Bp C) as (a & Oa & A). destruct (lmax_best q a Hq Bq (countable_out _ _ _ C Oa)) as (b & Ob & B). destruct (lmax_best (p + q - 1) xs ltac:(lia) Bk C) as (c & Oc & K).
  destruct (lmin_best p xs Hp Bp C) as (a' & Oa' & A'). destruct (lmin_best q a' Hq Bq (countable_out _ _ _ C Oa')) as (b' & Ob' & B'). destruct (lmin_best (p + q - 1) xs ltac:(lia) Bk C) as (c' & Oc' & K'). clear C Bp Bq Bk.
  assert (La := proj1 Oa). assert (Lb := proj1 Ob). assert (La' := proj1 Oa'). assert (Lb' := proj1 Ob'). rewrite La in *. rewrite La' in *.
  assert (J : forall m s : nat, (s < p + q - 1)%nat -> (s <= m)%nat -> exists i, (i < q)%nat /\ (i <= s)%nat /\ (s - i < p)%nat) by (intros m s S1 S2; exists (Nat.min s (q - 1)); lia).
  assert (E : b = c) by (apply (twice_core Rle (fun _ => p) (fun _ => q) (fun _ => p + q - 1)%nat xs a); [exact le_order|exact A|exact B|exact K|exact Lb|apply Oc|intros; lia|exact J]).
  assert (E' : b' = c') by (apply (twice_core Rge (fun _ => p) (fun _ => q) (fun _ => p + q - 1)%nat xs a'); [exact ge_order|exact A'|exact B'|exact K'|exact Lb'|apply Oc'|intros; lia|exact J]).
  subst c c'. exists b, b'. split; [exact Oc|]. split; [apply (compose_outputs _ _ xs a b); [now apply fits_lmax|now apply fits_lmax|exact NE|exact Oa|exact Ob]|]. split; [exact Oc'|].
  apply (compose_outputs _ _ xs a' b'); [now apply fits_lmin|now apply fits_lmin|exact NE|exact Oa'|exact Ob'].
Qed.
Theorem global_twice p xs : (1 <= p)%nat -> (Z.of_nat p < 2147483648)%Z -> countable xs ->
  exists high low, outputs GlobalMaximum xs high /\ outputs (Compose [GlobalMaximum; LocalMaximum (Z.of_nat p)]) xs high /\ outputs (Compose [LocalMaximum (Z.of_nat p); GlobalMaximum]) xs high /\
    outputs (Compose [GlobalMaximum; GlobalMaximum]) xs high /\
    outputs GlobalMinimum xs low /\ outputs (Compose [GlobalMinimum; LocalMinimum (Z.of_nat p)]) xs low /\ outputs (Compose [LocalMinimum (Z.of_nat p); GlobalMinimum]) xs low /\
    outputs (Compose [GlobalMinimum; GlobalMinimum]) xs low.
Proof.
  intros Hp Hb C. assert (NE := proj1 C).
  assert (X : exists high, outputs GlobalMaximum xs high /\ outputs (Compose [GlobalMaximum; LocalMaximum (Z.of_nat p)]) xs high /\ outputs (Compose [LocalMaximum (Z.of_nat p); GlobalMaximum]) xs high /\ outputs (Compose [GlobalMaximum; GlobalMaximum]) xs high).
  { destruct (gmax_best xs C) as (g & Og & G). destruct (lmax_best p xs Hp Hb C) as (l & Ol & L). destruct (gmax_best l (countable_out _ _ _ C Ol)) as (gl & Ogl & GL).
    destruct (lmax_best p g Hp Hb (countable_out _ _ _ C Og)) as (lg & Olg & LG). destruct (gmax_best g (countable_out _ _ _ C Og)) as (gg & Ogg & GG). clear C Hb.
    assert (Lg := proj1 Og). assert (Ll := proj1 Ol). assert (Lgl := proj1 Ogl). assert (Llg := proj1 Olg). assert (Lgg := proj1 Ogg). rewrite Lg in *. rewrite Ll in *.
    assert (E1 : gl = g) by (apply (twice_core Rle (fun _ => p) S S xs l); [exact le_order|exact L|exact GL|exact G|exact Lgl|exact Lg|intros; lia|intros m s S1 S2; exists s; lia]).
    assert (E2 : lg = g) by (apply (twice_core Rle S (fun _ => p) S xs g); [exact le_order|exact G|exact LG|exact G|exact Llg|exact Lg|intros; lia|intros m s S1 S2; exists 0%nat; lia]).
    assert (E3 : gg = g) by (apply (twice_core Rle S S S xs g); [exact le_order|exact G|exact GG|exact G|exact Lgg|exact Lg|intros; lia|intros m s S1 S2; exists 0%nat; lia]).
    subst gl lg gg. exists g. split; [exact Og|]. split; [apply (compose_outputs _ _ xs l g); [now apply fits_lmax|apply fits_gmax|exact NE|exact Ol|exact Ogl]|].
    split; [apply (compose_outputs _ _ xs g g); [apply fits_gmax|now apply fits_lmax|exact NE|exact Og|exact Olg]|apply (compose_outputs _ _ xs g g); [apply fits_gmax|apply fits_gmax|exact NE|exact Og|exact Ogg]]. }
  assert (Y : exists low, outputs GlobalMinimum xs low /\ outputs (Compose [GlobalMinimum; LocalMinimum (Z.of_nat p)]) xs low /\ outputs (Compose [LocalMinimum (Z.of_nat p); GlobalMinimum]) xs low /\ outputs (Compose [GlobalMinimum; GlobalMinimum]) xs low).
  { destruct (gmin_best xs C) as (g & Og & G). destruct (lmin_best p xs Hp Hb C) as (l & Ol & L). destruct (gmin_best l (countable_out _ _ _ C Ol)) as (gl & Ogl & GL).
    destruct (lmin_best p g Hp Hb (countable_out _ _ _ C Og)) as (lg & Olg & LG). destruct (gmin_best g (countable_out _ _ _ C Og)) as (gg & Ogg & GG). clear C Hb.
    assert (Lg := proj1 Og). assert (Ll := proj1 Ol). assert (Lgl := proj1 Ogl). assert (Llg := proj1 Olg). assert (Lgg := proj1 Ogg). rewrite Lg in *. rewrite Ll in *.
    assert (E1 : gl = g) by (apply (twice_core Rge (fun _ => p) S S xs l); [exact ge_order|exact L|exact GL|exact G|exact Lgl|exact Lg|intros; lia|intros m s S1 S2; exists s; lia]).
    assert (E2 : lg = g) by (apply (twice_core Rge S (fun _ => p) S xs g); [exact ge_order|exact G|exact LG|exact G|exact Llg|exact Lg|intros; lia|intros m s S1 S2; exists 0%nat; lia]).
    assert (E3 : gg = g) by (apply (twice_core Rge S S S xs g); [exact ge_order|exact G|exact GG|exact G|exact Lgg|exact Lg|intros; lia|intros m s S1 S2; exists 0%nat; lia]).
    subst gl lg gg. exists g. split; [exact Og|]. split; [apply (compose_outputs _ _ xs l g); [now apply fits_lmin|apply fits_gmin|exact NE|exact Ol|exact Ogl]|].
    split; [apply (compose_outputs _ _ xs g g); [apply fits_gmin|now apply fits_lmin|exact NE|exact Og|exact Olg]|apply (compose_outputs _ _ xs g g); [apply fits_gmin|apply fits_gmin|exact NE|exact Og|exact Ogg]]. }
  destruct X as (h & X), Y as (l & Y). exists h, l. tauto.
Qed.
Theorem closing p xs : (1 <= p)%nat -> (Z.of_nat p < 2147483648)%Z -> countable xs ->
  exists upper lower, outputs (Compose [LocalMinimum (Z.of_nat p); LocalMaximum (Z.of_nat p)]) xs upper /\ outputs (Compose [LocalMaximum (Z.of_nat p); LocalMinimum (Z.of_nat p)]) xs lower /\
    forall m, (p <= m + 1)%nat -> (m < length xs)%nat -> at_pos lower m <= at_pos xs (m + 1 - p) <= at_pos upper m.
Proof.
  intros Hp Hb C. assert (NE := proj1 C). destruct (lmax_best p xs Hp Hb C) as (h & Oh & H). destruct (lmin_best p xs Hp Hb C) as (l & Ol & L).
  destruct (lmin_best p h Hp Hb (countable_out _ _ _ C Oh)) as (u & Ou & U). destruct (lmax_best p l Hp Hb (countable_out _ _ _ C Ol)) as (d & Od & D). clear C Hb. assert (Lh := proj1 Oh). assert (Ll := proj1 Ol).
  exists u, d. split; [apply (compose_outputs _ _ xs h u); [now apply fits_lmax|now apply fits_lmin|exact NE|exact Oh|exact Ou]|]. split; [apply (compose_outputs _ _ xs l d); [now apply fits_lmin|now apply fits_lmax|exact NE|exact Ol|exact Od]|].
  rewrite Lh in *. rewrite Ll in *. intros m P M. split.
  - destruct (D m M) as [(i & I1 & I2 & E) _]. rewrite E. destruct (L (m - i)%nat ltac:(lia)) as [_ B]. assert (Q := B (p - 1 - i)%nat ltac:(lia) ltac:(lia)). replace (m - i - (p - 1 - i))%nat with (m + 1 - p)%nat in Q by lia. lra.
  - destruct (U m M) as [(i & I1 & I2 & E) _]. rewrite E. destruct (H (m - i)%nat ltac:(lia)) as [_ B]. assert (Q := B (p - 1 - i)%nat ltac:(lia) ltac:(lia)). replace (m - i - (p - 1 - i))%nat with (m + 1 - p)%nat in Q by lia. lra.
Qed.
