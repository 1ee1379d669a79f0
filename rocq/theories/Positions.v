(** * Positions: reading a streamed result position by position. *)
From Coq Require Import List ZArith Bool Lia.
From Verif Require Import Num Py Tensor Streamable Series.
Import ListNotations.

(** The history at position [n] of the series [xs]: elements n, n-1, ..., 0. *)
Definition upto {X} (n : nat) (xs : list X) : list X := rev (firstn (S n) xs).

Lemma upto_length {X} n (xs : list X) : n < length xs -> length (upto n xs) = S n.
Proof. intros H. unfold upto. rewrite rev_length, firstn_length. lia. Qed.
Lemma nth_firstn {X} i k (xs : list X) d : i < k -> nth i (firstn k xs) d = nth i xs d.
Proof.
  revert i xs. induction k as [|k IH]; intros i xs H; [lia|]. destruct xs as [|x xs]; [reflexivity|].
  destruct i as [|i]; [reflexivity|]. cbn. apply IH. lia.
Qed.
Lemma nth_upto {X} n i (xs : list X) d : i <= n -> n < length xs -> nth i (upto n xs) d = nth (n - i) xs d.
Proof.
  intros H1 H2. unfold upto. rewrite rev_nth; rewrite firstn_length, Nat.min_l by lia; [|lia].
  rewrite nth_firstn by lia. f_equal.
Qed.
Lemma in_upto {X} n (xs : list X) x : In x (upto n xs) -> In x xs.
Proof.
  unfold upto. rewrite <- in_rev. intros H. rewrite <- (firstn_skipn (S n) xs). apply in_or_app. now left.
Qed.
Lemma upto_in {X} n (xs : list X) d x : n < length xs ->
  (In x (upto n xs) <-> exists i, i <= n /\ nth i xs d = x).
Proof.
  intros H. split.
  - intros I. apply (In_nth _ _ d) in I as (i & Hi & <-). rewrite upto_length in Hi by exact H.
    exists (n - i). split; [lia|]. symmetry. apply nth_upto; lia.
  - intros (i & Hi & <-). replace i with (n - (n - i)) by lia. rewrite <- (nth_upto n (n - i)) by lia.
    apply nth_In. rewrite upto_length; lia.
Qed.
Lemma hists_length {X} : forall (xs h : list X), length (hists h xs) = length xs.
Proof. induction xs as [|x xs IH]; intros h; cbn; [reflexivity|]. now rewrite IH. Qed.
Lemma nth_hists {X} : forall (xs h : list X) n d, n < length xs -> nth n (hists h xs) d = upto n xs ++ h.
Proof.
  induction xs as [|x xs IH]; intros h n d H; [cbn in H; lia|]. cbn [hists].
  destruct n as [|n]; [reflexivity|]. cbn [nth length] in *. rewrite IH by lia.
  unfold upto. cbn [firstn rev]. rewrite <- app_assoc. reflexivity.
Qed.
Lemma nth_hists0 {X} (xs : list X) n d : n < length xs -> nth n (hists [] xs) d = upto n xs.
Proof. intros H. rewrite nth_hists by exact H. apply app_nil_r. Qed.
Lemma nth_map_hists {X Y} (f : list X -> Y) xs n d : n < length xs -> nth n (map f (hists [] xs)) d = f (upto n xs).
Proof.
  intros H. rewrite (nth_indep _ d (f [])) by (rewrite map_length, hists_length; exact H).
  rewrite map_nth. f_equal. now apply nth_hists0.
Qed.
Lemma upto_last {X} (xs : list X) : upto (length xs - 1) xs = rev xs.
Proof. unfold upto. rewrite firstn_all2 by lia. reflexivity. Qed.
(** The last [p] elements up to position [n], the newest first. *)
Lemma firstn_upto {X} p n (xs : list X) d : p <= S n -> n < length xs ->
  firstn p (upto n xs) = map (fun i => nth (n - i) xs d) (seq 0 p).
Proof.
  intros H1 H2. apply (nth_ext _ _ d d).
  - rewrite firstn_length, map_length, seq_length, upto_length by exact H2. lia.
  - intros i Hi. rewrite firstn_length, upto_length in Hi by exact H2.
    rewrite nth_firstn by lia. rewrite nth_upto by lia.
    rewrite (nth_indep (map (fun i => nth (n - i) xs d) (seq 0 p)) d ((fun i => nth (n - i) xs d) 0)) by (rewrite map_length, seq_length; lia).
    rewrite (map_nth (fun i => nth (n - i) xs d)), seq_nth by lia. reflexivity.
Qed.

Section Reading.
Context {N : FOps}.
(** Streams of scalars. *)
Lemma scalar_positions {X} op ok (inp : list X -> val) (f : list X -> F) :
  streams op ok inp (fun hs => scalars (map f hs)) ->
  forall xs, xs <> [] -> ok (rev xs) ->
  exists out sf s0, call op (inp xs) None true = Ok (scalars out, sf, s0) /\ length out = length xs /\
    forall n d, n < length xs -> nth n out d = f (upto n xs).
Proof.
  intros (st & H & _) xs NE OK. exists (map f (hists [] xs)), (st (rev xs)), (st []).
  split; [now apply H|]. split; [now rewrite map_length, hists_length|]. intros. now apply nth_map_hists.
Qed.
Lemma each_nth {B} s (f : list F -> B) h j d : j < prod s -> nth j (each s f h) d = f (column f0 j h).
Proof.
  intros H. unfold each. rewrite (nth_indep _ d ((fun j => f (column f0 j h)) 0)) by (rewrite map_length, seq_length; exact H).
  rewrite (map_nth (fun j => f (column f0 j h))), seq_nth by exact H. reflexivity.
Qed.
(** Position [n] of number [j] of a series of tensors. *)
Definition number (xs : list (list F)) (j n : nat) : F := nth j (nth n xs []) f0.
(** The series of number [j]. *)
Definition numbers (xs : list (list F)) (j : nat) : list F := map (fun r => nth j r f0) xs.
Lemma column_upto j n xs : column f0 j (upto n xs) = upto n (numbers xs j).
Proof. unfold column, upto, numbers. now rewrite map_rev, firstn_map. Qed.
Lemma numbers_length xs j : length (numbers xs j) = length xs.
Proof. apply map_length. Qed.
Lemma nth_numbers xs j n : n < length xs -> nth n (numbers xs j) f0 = number xs j n.
Proof.
  intros H. unfold numbers, number. rewrite (nth_indep _ f0 ((fun r => nth j r f0) [])) by (rewrite map_length; exact H).
  now rewrite (map_nth (fun r => nth j r f0)).
Qed.
(** Streams of tensors of shape [s]. *)
Lemma tensor_positions op ok s (f : list F -> F) :
  streams op ok (tensors s) (fun hs => tensors s (map (each s f) hs)) ->
  forall xs, xs <> [] -> ok (rev xs) ->
  exists out sf s0, call op (tensors s xs) None true = Ok (tensors s out, sf, s0) /\ length out = length xs /\
    forall n j, n < length xs -> j < prod s -> number out j n = f (upto n (numbers xs j)).
Proof.
  intros (st & H & _) xs NE OK. exists (map (each s f) (hists [] xs)), (st (rev xs)), (st []).
  split; [now apply H|]. split; [now rewrite map_length, hists_length|]. intros n j Hn Hj.
  unfold number. rewrite nth_map_hists by exact Hn. rewrite each_nth by exact Hj. now rewrite column_upto.
Qed.
End Reading.
