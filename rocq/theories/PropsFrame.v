(** * PropsFrame: property C61 — tables of several products regrouped by field.
    Vocabulary: SpecFrame.v.  [nan] is the value pandas gives to absent cells. *)
From Coq Require Import List ZArith String Sorted.
From Verif Require Import Py Frame SpecFrame FrameFacts.
Import ListNotations.

(** Every list of tables that have the fields of the first one is regrouped: one table per field of the first
    product, in its order; column i belongs to product i; the rows are those of any product. *)
Theorem C61_regrouped {A} (nan : A) first rest : let products := first :: rest in
  Forall table products -> Forall (fun p => incl (names first) (names p)) products ->
  exists data, transpose nan products = Ok data /\ map fst data = names first /\
    Forall (fun d => regrouped nan products (fst d) (snd d)) data.
Proof. exact (fun T I => match transpose_ok nan first rest T I with ex_intro _ d (conj a (conj b (conj c _))) => ex_intro _ d (conj a (conj b c)) end). Qed.
Print Assumptions C61_regrouped.
(** Products with the same rows, repeated labels or not: the rows keep their order and every column is copied as it is. *)
Theorem C61_same_rows {A} (nan : A) first rest : let products := first :: rest in
  Forall (fun p => NoDup (names p)) products -> Forall (fun p => incl (names first) (names p)) products ->
  Forall (fun p => labels p = labels first) products ->
  exists data, transpose nan products = Ok data /\ map fst data = names first /\
    Forall (fun d => labels (snd d) = labels first /\
      Forall2 (fun p col => fst col = fst d /\ In col (columns p)) products (columns (snd d))) data.
Proof. exact (transpose_copies nan first rest). Qed.
Print Assumptions C61_same_rows.
(** The order of the rows in general: products without rows do not matter; if the others agree, theirs; otherwise increasing. *)
Theorem C61_row_order {A} (nan : A) first rest data : let products := first :: rest in
  Forall table products -> transpose nan products = Ok data ->
  (forall l, Forall (fun p => labels p = [] \/ labels p = l) products -> Exists (fun p => labels p = l) products ->
    Forall (fun d => labels (snd d) = l) data) /\
  ((exists p q, In p products /\ In q products /\ labels p <> [] /\ labels q <> [] /\ labels p <> labels q) ->
    Forall (fun d => StronglySorted Z.lt (labels (snd d))) data).
Proof. exact (transpose_order nan first rest data). Qed.
Print Assumptions C61_row_order.
(** A product with a repeated row label cannot be regrouped with one that has a row it lacks. *)
Theorem C61_repeated_rows {A} (nan : A) first rest p q l : let products := first :: rest in
  names first <> [] -> In p products -> In q products -> ~ NoDup (labels p) -> In l (labels q) -> ~ In l (labels p) ->
  exists e, transpose nan products = Err e.
Proof. exact (transpose_repeated nan first rest p q l). Qed.
Print Assumptions C61_repeated_rows.
(** A product without one of the fields of the first: KeyError.  No product: IndexError. *)
Theorem C61_missing_field {A} (nan : A) first rest : let products := first :: rest in
  Forall table products -> Exists (fun p => ~ incl (names first) (names p)) products -> transpose nan products = Err EKey.
Proof. exact (transpose_missing nan first rest). Qed.
Print Assumptions C61_missing_field.
Theorem C61_no_product {A} (nan : A) : transpose nan [] = Err EIndex.
Proof. exact eq_refl. Qed.
Print Assumptions C61_no_product.

(** Two products; the second has an additional field and other rows. *)
Definition ex_a : frame Z := mkFrame [3; 1]%Z [("open", [30; 10]%Z); ("close", [31; 11]%Z)]%string.
Definition ex_b : frame Z := mkFrame [2; 1]%Z [("close", [221; 211]%Z); ("volume", [5; 6]%Z); ("open", [220; 210]%Z)]%string.
Lemma ex_tables : Forall table [ex_a; ex_b].
Proof.
  repeat constructor; cbn; try (intros H; repeat (destruct H as [H|H]; try discriminate H); exact H); repeat constructor.
Qed.
Example C61_met : Forall table [ex_a; ex_b] /\ Forall (fun p => incl (names ex_a) (names p)) [ex_a; ex_b] /\
  transpose 0%Z [ex_a; ex_b] = Ok [("open"%string, mkFrame [1; 2; 3]%Z [("open", [10; 0; 30]%Z); ("open", [210; 220; 0]%Z)]%string);
                             ("close"%string, mkFrame [1; 2; 3]%Z [("close", [11; 0; 31]%Z); ("close", [211; 221; 0]%Z)]%string)] /\
  Exists (fun p => ~ incl (names ex_b) (names p)) [ex_b; ex_a] /\ transpose 0%Z [ex_b; ex_a] = Err EKey /\
  Forall (fun p => labels p = labels ex_a) [ex_a; ex_a].
Proof.
  split; [exact ex_tables|]. split; [constructor; [|constructor; [|constructor]]; intros x; cbn; tauto|]. split; [reflexivity|]. split; [|split; [reflexivity|repeat constructor]].
  apply Exists_cons_tl, Exists_cons_hd. intros H. specialize (H "volume"%string). cbn in H.
  destruct H as [H|[H|H]]; [tauto|discriminate H|discriminate H|exact H].
Qed.
Definition ex_twice : frame Z := mkFrame [1; 1]%Z [("open", [10; 12]%Z)]%string.
Example C61_repeated_met : names ex_twice <> [] /\ ~ NoDup (labels ex_twice) /\ In 2%Z (labels ex_b) /\ ~ In 2%Z (labels ex_twice) /\
  transpose 0%Z [ex_twice; ex_b] = Err EValue /\
  transpose 0%Z [ex_twice; ex_twice] = Ok [("open"%string, mkFrame [1; 1]%Z [("open", [10; 12]%Z); ("open", [10; 12]%Z)]%string)].
Proof.
  split; [discriminate|]. split; [intros H; apply NoDup_cons_iff in H; cbn in H; tauto|]. split; [now left|].
  split; [cbn; intros [H|[H|H]]; [discriminate H|discriminate H|exact H]|]. split; reflexivity.
Qed.
