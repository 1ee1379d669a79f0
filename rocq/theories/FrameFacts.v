(** * FrameFacts: proofs of C61. *)
From Coq Require Import List ZArith Bool String Lia Sorted Permutation.
From Verif Require Import Py PyFacts Frame SpecFrame.
Import ListNotations.
Local Notation len := List.length.

Lemma same_labels_spec a : forall b, same_labels a b = true <-> a = b.
Proof.
  induction a as [|x a IH]; intros [|y b]; cbn; split; try discriminate; try reflexivity.
  - intros H. apply andb_prop in H. destruct H as [H1 H2]. apply Z.eqb_eq in H1. apply IH in H2. congruence.
  - intros H. injection H as -> ->. rewrite Z.eqb_refl. now apply IH.
Qed.
Lemma insert_perm x l : Permutation (x :: l) (insert x l).
Proof.
  induction l as [|y r IH]; cbn; [reflexivity|]. destruct (Z.leb x y); [reflexivity|].
  rewrite perm_swap. now rewrite IH.
Qed.
Lemma sort_perm l : Permutation l (sort l).
Proof. induction l as [|x r IH]; cbn; [reflexivity|]. rewrite <- insert_perm. now constructor. Qed.
Lemma insert_sorted x l : StronglySorted Z.le l -> StronglySorted Z.le (insert x l).
Proof.
  induction l as [|y r IH]; cbn; intros H; [repeat constructor|].
  apply StronglySorted_inv in H. destruct H as [H1 H2].
  destruct (Z.leb_spec x y).
  - constructor; [constructor; assumption|]. constructor; [assumption|]. eapply Forall_impl; [|exact H2]. cbn. lia.
  - constructor; [now apply IH|]. eapply Permutation_Forall; [apply insert_perm|]. constructor; [lia|assumption].
Qed.
Lemma sort_sorted l : StronglySorted Z.le (sort l).
Proof. induction l as [|x r IH]; cbn; [constructor|now apply insert_sorted]. Qed.
Lemma strict_sorted l : StronglySorted Z.le l -> NoDup l -> StronglySorted Z.lt l.
Proof.
  induction l as [|x r IH]; intros H D; [constructor|]. apply StronglySorted_inv in H. destruct H as [H1 H2].
  apply NoDup_cons_iff in D. destruct D as [D1 D2]. constructor; [now apply IH|].
  rewrite Forall_forall in H2 |- *. intros y Hy. specialize (H2 y Hy). assert (x <> y) by congruence. lia.
Qed.

Lemma union_in a b l : In l (union a b) <-> In l a \/ In l b.
Proof.
  unfold union. destruct b as [|y b]; [cbn; tauto|]. destruct (same_labels a (y :: b)) eqn:E.
  - apply same_labels_spec in E. subst. tauto.
  - destruct a as [|x a]; [cbn; tauto|]. rewrite <- in_app_iff. rewrite <- (nodup_In Z.eq_dec ((x :: a) ++ y :: b)).
    split; apply Permutation_in; [symmetry|]; apply sort_perm.
Qed.
Lemma union_nodup a b : NoDup a -> NoDup b -> NoDup (union a b).
Proof.
  intros Ha Hb. unfold union. destruct b as [|y b]; [assumption|]. destruct (same_labels a (y :: b)); [assumption|].
  destruct a as [|x a]; [assumption|]. eapply Permutation_NoDup; [apply sort_perm|apply NoDup_nodup].
Qed.
Lemma unions_in ls : forall a l, In l (fold_left union ls a) <-> In l a \/ exists b, In b ls /\ In l b.
Proof.
  induction ls as [|b ls IH]; intros a l; cbn; [firstorder|]. rewrite IH, union_in.
  split; [intros [[H|H]|(c & H1 & H2)]; eauto|intros [H|(c & [->|H1] & H2)]; eauto].
Qed.
Lemma unions_nodup ls : forall a, NoDup a -> Forall (@NoDup Z) ls -> NoDup (fold_left union ls a).
Proof.
  induction ls as [|b ls IH]; intros a Ha H; cbn; [assumption|]. inversion H; subst. apply IH; [now apply union_nodup|assumption].
Qed.

(** The order of the rows. *)
Lemma union_same a b L : (a = [] \/ a = L) -> (b = [] \/ b = L) -> (union a b = [] \/ union a b = L) /\ (a = L \/ b = L -> union a b = L).
Proof.
  intros Ha Hb. unfold union. destruct b as [|y b].
  - split; [assumption|]. intros [H|H]; [assumption|]. subst L. destruct Ha; assumption.
  - destruct Hb as [Hb|Hb]; [discriminate|]. subst L. destruct (same_labels a (y :: b)) eqn:E.
    + apply same_labels_spec in E. subst. tauto.
    + destruct a as [|x a]; [tauto|]. destruct Ha as [Ha|Ha]; [discriminate|]. rewrite Ha in E.
      exfalso. assert (same_labels (y :: b) (y :: b) = true) by now apply same_labels_spec. congruence.
Qed.
Lemma unions_same L ls : forall a, (a = [] \/ a = L) -> Forall (fun b => b = [] \/ b = L) ls ->
  (fold_left union ls a = [] \/ fold_left union ls a = L) /\ (a = L \/ In L ls -> fold_left union ls a = L).
Proof.
  induction ls as [|b ls IH]; intros a Ha H; cbn.
  - split; [assumption|tauto].
  - inversion H; subst. destruct (union_same a b L Ha H2) as [U1 U2]. destruct (IH _ U1 H3) as [I1 I2].
    split; [assumption|]. intros [E|[E|E]]; apply I2; auto.
Qed.
Lemma union_sorts a b : StronglySorted Z.lt a -> NoDup a -> NoDup b -> a <> [] -> StronglySorted Z.lt (union a b).
Proof.
  intros Ha Da Db Ne. unfold union. destruct b as [|y b]; [assumption|]. destruct (same_labels a (y :: b)); [assumption|].
  destruct a as [|x a]; [now contradiction Ne|]. apply strict_sorted; [apply sort_sorted|].
  eapply Permutation_NoDup; [apply sort_perm|apply NoDup_nodup].
Qed.
Lemma union_nil a b : union a b = [] -> a = [] /\ b = [].
Proof.
  intros H. split.
  - destruct a as [|x a]; [reflexivity|]. assert (I : In x (union (x :: a) b)) by (apply union_in; cbn; tauto). rewrite H in I. destruct I.
  - destruct b as [|x b]; [reflexivity|]. assert (I : In x (union a (x :: b))) by (apply union_in; cbn; tauto). rewrite H in I. destruct I.
Qed.
Lemma unions_sorts ls : forall a, StronglySorted Z.lt a -> NoDup a -> Forall (@NoDup Z) ls -> a <> [] ->
  StronglySorted Z.lt (fold_left union ls a).
Proof.
  induction ls as [|b ls IH]; intros a Ha Da H Ne; cbn; [assumption|]. inversion H; subst.
  apply IH; [now apply union_sorts|now apply union_nodup|assumption|].
  intros E. apply union_nil in E. tauto.
Qed.
Lemma unions_differ ls : forall a, NoDup a -> Forall (@NoDup Z) ls ->
  (exists b c, In b (a :: ls) /\ In c (a :: ls) /\ b <> [] /\ c <> [] /\ b <> c) ->
  StronglySorted Z.lt (fold_left union ls a).
Proof.
  induction ls as [|x ls IH]; intros a Da H (b & c & Hb & Hc & Nb & Nc & Ne); cbn.
  - destruct Hb as [<-|[]], Hc as [<-|[]]. now contradiction Ne.
  - inversion H; subst.
    destruct x as [|y x].
    + apply IH; [assumption|assumption|]. exists b, c.
      repeat split; try assumption; [destruct Hb as [Hb|[Hb|Hb]]|destruct Hc as [Hc|[Hc|Hc]]]; subst; cbn; auto; now contradiction.
    + destruct a as [|z a].
      * replace (union [] (y :: x)) with (y :: x) by reflexivity. apply IH; [assumption|assumption|]. exists b, c.
        repeat split; try assumption; [destruct Hb as [Hb|[Hb|Hb]]|destruct Hc as [Hc|[Hc|Hc]]]; subst; cbn; auto; now contradiction.
      * destruct (same_labels (z :: a) (y :: x)) eqn:E.
        -- assert (U : union (z :: a) (y :: x) = z :: a) by (unfold union; now rewrite E). rewrite U.
           apply same_labels_spec in E. apply IH; [assumption|assumption|]. exists b, c.
           repeat split; try assumption; [destruct Hb as [Hb|[Hb|Hb]]|destruct Hc as [Hc|[Hc|Hc]]]; subst; cbn; auto; rewrite E; auto.
        -- apply unions_sorts; [|now apply union_nodup|assumption|].
           ++ unfold union. rewrite E. apply strict_sorted; [apply sort_sorted|]. eapply Permutation_NoDup; [apply sort_perm|apply NoDup_nodup].
           ++ intros F. apply union_nil in F. destruct F; discriminate.
Qed.

(** Columns and alignment. *)
Section F.
Context {A : Type} (nan : A).
Implicit Types (t p : frame A).

Lemma distinct_spec l : NoDup l -> distinct l = true.
Proof.
  induction 1 as [|x l H D IH]; [reflexivity|]. cbn. rewrite IH, andb_true_r. destruct (existsb (Z.eqb x) l) eqn:E; [|reflexivity].
  apply existsb_exists in E. destruct E as (y & Hy & E). apply Z.eqb_eq in E. subst. contradiction.
Qed.
Lemma cell_out ls : forall (vs : list A) l, ~ In l ls -> cell nan ls vs l = nan.
Proof.
  induction ls as [|x ls IH]; intros vs l H; [reflexivity|]. destruct vs as [|v vs]; [reflexivity|]. cbn in *.
  destruct (Z.eqb_spec x l); [tauto|]. apply IH. tauto.
Qed.
Lemma cell_in ls : forall (vs : list A) l k v, NoDup ls -> nth_error ls k = Some l -> nth_error vs k = Some v -> cell nan ls vs l = v.
Proof.
  induction ls as [|x ls IH]; intros vs l k v D Hl Hv; [destruct k; discriminate|]. apply NoDup_cons_iff in D. destruct D as [D1 D2].
  destruct k as [|k], vs as [|w vs]; cbn in *; try discriminate.
  - injection Hl as ->. injection Hv as ->. now rewrite Z.eqb_refl.
  - destruct (Z.eqb_spec x l) as [->|_]; [exfalso; apply D1; eapply nth_error_In; eassumption|]. eapply IH; eassumption.
Qed.
Lemma cells_self (vs : list A) ls : NoDup ls -> len vs = len ls -> map (cell nan ls vs) ls = vs.
Proof.
  revert vs. induction ls as [|x ls IH]; intros [|v vs] D L; try discriminate; [reflexivity|]. cbn. rewrite Z.eqb_refl. f_equal.
  apply NoDup_cons_iff in D. destruct D as [D1 D2]. transitivity (map (cell nan ls vs) ls); [|apply IH; [assumption|cbn in L; lia]]. apply map_ext_in. intros y Hy.
  destruct (Z.eqb_spec x y) as [->|_]; [contradiction|reflexivity].
Qed.
Lemma reindex_ok target (s : series A) : NoDup (s_labels s) -> len (s_values s) = len (s_labels s) ->
  reindex nan target s = Ok (map (cell nan (s_labels s) (s_values s)) target).
Proof.
  intros D L. unfold reindex. destruct (same_labels (s_labels s) target) eqn:E.
  - apply same_labels_spec in E. subst. now rewrite cells_self.
  - now rewrite distinct_spec.
Qed.

Lemma getitem_ok t c vs : NoDup (names t) -> In (c, vs) (columns t) -> getitem t c = Ok (mkSeries (labels t) c vs).
Proof.
  unfold names, getitem. intros D H.
  assert (E : filter (fun x => String.eqb (fst x) c) (columns t) = [(c, vs)]).
  { revert D H. generalize (columns t). induction l as [|[n w] l IH]; cbn; intros D H; [destruct H|].
    apply NoDup_cons_iff in D. destruct D as [D1 D2]. destruct H as [H|H].
    - injection H as -> ->. rewrite String.eqb_refl. f_equal.
      clear IH D2. induction l as [|[n w] l IH]; [reflexivity|]. cbn in *. destruct (String.eqb_spec n c); [subst; tauto|]. apply IH. tauto.
    - destruct (String.eqb_spec n c) as [->|_]; [|now apply IH]. exfalso. apply D1. change c with (fst (c, vs)). now apply in_map. }
  now rewrite E.
Qed.
Lemma getitem_missing t c : ~ In c (names t) -> getitem t c = Err EKey.
Proof.
  unfold names, getitem. intros H.
  assert (E : filter (fun x => String.eqb (fst x) c) (columns t) = []).
  { revert H. generalize (columns t). induction l as [|[n w] l IH]; cbn; intros H; [reflexivity|].
    destruct (String.eqb_spec n c); [tauto|]. apply IH. tauto. }
  now rewrite E.
Qed.
Lemma column_of t c : In c (names t) -> exists vs, In (c, vs) (columns t).
Proof. unfold names. intros H. apply in_map_iff in H. destruct H as ([n vs] & E & H). cbn in E. subst. eauto. Qed.

(** The series of field [c]. *)
Definition picked (c : string) (p : frame A) (s : series A) : Prop :=
  exists vs, In (c, vs) (columns p) /\ s = mkSeries (labels p) c vs.
Lemma picks c ps : Forall table ps -> Forall (fun p => In c (names p)) ps ->
  exists ss, mapM (fun p => getitem p c) ps = Ok ss /\ Forall2 (picked c) ps ss.
Proof.
  induction 1 as [|p ps T _ IH]; intros H; [exists []; split; [reflexivity|constructor]|]. inversion H; subst.
  destruct (IH H3) as (ss & E & F). destruct (column_of _ _ H2) as (vs & V).
  exists (mkSeries (labels p) c vs :: ss). split; [|constructor; [exists vs; tauto|assumption]].
  cbn. rewrite (getitem_ok p c vs) by (assumption || apply T). cbn.
  match goal with |- bind ?e _ = _ => change e with (mapM (fun p => getitem p c) ps) end. rewrite E. reflexivity.
Qed.
Lemma picks_missing c ps : Forall table ps -> Exists (fun p => ~ In c (names p)) ps -> mapM (fun p => getitem p c) ps = Err EKey.
Proof.
  induction 1 as [|p ps T _ IH]; intros H; [inversion H|].
  destruct (in_dec string_dec c (names p)) as [I|I].
  - inversion H as [? ? H2|? ? H2]; subst; [contradiction|]. destruct (column_of _ _ I) as (vs & V). cbn.
    rewrite (getitem_ok p c vs) by (assumption || apply T). cbn.
    match goal with |- bind ?e _ = _ => change e with (mapM (fun p => getitem p c) ps) end. rewrite (IH H2). reflexivity.
  - cbn. now rewrite getitem_missing.
Qed.

Lemma mapM_map {B C} (f : B -> res C) (g : B -> C) l : Forall (fun x => f x = Ok (g x)) l -> mapM f l = Ok (map g l).
Proof.
  induction 1 as [|x l H _ IH]; [reflexivity|]. cbn. rewrite H. cbn.
  match goal with |- bind ?e _ = _ => change e with (mapM f l) end. now rewrite IH.
Qed.
Definition joined (ps : list (frame A)) : list Z :=
  match map labels ps with [] => [] | a :: r => fold_left union r a end.
Definition field (ps : list (frame A)) (ss : list (series A)) (c : string) : frame A :=
  mkFrame (joined ps) (map (fun s => (c, map (cell nan (s_labels s) (s_values s)) (joined ps))) ss).
Lemma picked_labels c ps ss : Forall2 (picked c) ps ss -> map s_labels ss = map labels ps.
Proof. induction 1 as [|p s ps ss (vs & _ & ->) _ IH]; [reflexivity|]. cbn. now rewrite IH. Qed.
Lemma concat_ok c ps ss : ps <> [] -> Forall table ps -> Forall2 (picked c) ps ss -> concat_columns nan ss = Ok (field ps ss c).
Proof.
  intros Ne T F. pose proof (picked_labels c ps ss F) as E. unfold concat_columns, field.
  destruct ss as [|s ss]; [inversion F; subst; now contradiction Ne|].
  assert (J : joined ps = fold_left union (map s_labels ss) (s_labels s)) by (unfold joined; rewrite <- E; reflexivity).
  rewrite <- J.
  rewrite (mapM_map _ (fun s => (c, map (cell nan (s_labels s) (s_values s)) (joined ps)))); [reflexivity|].
  clear E J Ne. revert T. generalize (joined ps). intros target T. induction F as [|p s' ps ss' (vs & V & ->) _ IH]; [constructor|].
  inversion T as [|? ? (T1 & T2 & T3) T4]; subst. constructor; [|now apply IH].
  rewrite reindex_ok; [reflexivity|assumption|]. cbn. rewrite Forall_forall in T3. apply (T3 _ V).
Qed.

Lemma joined_nodup ps : Forall table ps -> NoDup (joined ps).
Proof.
  intros T. assert (D : Forall (@NoDup Z) (map labels ps)) by (apply Forall_map; eapply Forall_impl; [|exact T]; intros a [H _]; exact H).
  unfold joined. destruct (map labels ps) as [|a r]; [constructor|]. inversion D; subst. now apply unions_nodup.
Qed.
Lemma joined_in ps l : In l (joined ps) <-> exists p, In p ps /\ In l (labels p).
Proof.
  assert (E : (exists p, In p ps /\ In l (labels p)) <-> exists b, In b (map labels ps) /\ In l b).
  { split; [intros (p & H1 & H2); exists (labels p); split; [now apply in_map|assumption]|].
    intros (b & H1 & H2). apply in_map_iff in H1. destruct H1 as (p & <- & H1). eauto. }
  rewrite E. unfold joined. destruct (map labels ps) as [|a r]; [cbn; firstorder|]. rewrite unions_in. cbn.
  split; [intros [H|(b & H1 & H2)]; eauto|intros (b & [->|H1] & H2); eauto].
Qed.
Lemma forall2_nth {B C} (R : B -> C -> Prop) l m : Forall2 R l m -> forall i x, nth_error l i = Some x -> exists y, nth_error m i = Some y /\ R x y.
Proof. induction 1 as [|a b l m H _ IH]; intros [|i] x E; cbn in *; try discriminate; [injection E as ->; eauto|auto]. Qed.
Lemma field_regrouped c ps ss : Forall table ps -> Forall2 (picked c) ps ss -> regrouped nan ps c (field ps ss c).
Proof.
  intros T F. unfold regrouped, names, field. cbn [columns labels].
  split; [|split; [|split; [|split; [|split]]]].
  - rewrite map_map. cbn. clear T. induction F as [|p s ps' ss' H F IH]; [reflexivity|]. cbn. now f_equal.
  - apply Forall_forall. intros x Hx. apply in_map_iff in Hx. destruct Hx as (s & <- & _). cbn. now rewrite map_length.
  - now apply joined_nodup.
  - apply joined_in.
  - intros i p l v Hi (vs & k & V & Hl & Hv). destruct (forall2_nth _ _ _ F i p Hi) as (s & Hs & (vs' & V' & ->)).
    assert (Tp : table p) by (rewrite Forall_forall in T; apply T; eapply nth_error_In; eassumption). destruct Tp as (T1 & T2 & T3).
    assert (vs' = vs) as ->.
    { clear -T2 V V'. revert T2 V V'. generalize (columns p). induction l as [|[n w] l IH]; cbn; intros D H H'; [destruct H|].
      apply NoDup_cons_iff in D. destruct D as [D1 D2]. destruct H as [H|H], H' as [H'|H'].
      - congruence.
      - injection H as -> ->. exfalso. apply D1. change c with (fst (c, vs')). now apply in_map.
      - injection H' as -> ->. exfalso. apply D1. change c with (fst (c, vs)). now apply in_map.
      - now apply IH. }
    assert (J : In l (joined ps)) by (apply joined_in; exists p; split; eapply nth_error_In; eassumption).
    apply In_nth_error in J. destruct J as (j & J).
    exists c, (map (cell nan (labels p) vs) (joined ps)), j. cbn. split; [|split; [assumption|]].
    + erewrite map_nth_error by exact Hs. reflexivity.
    + erewrite map_nth_error by exact J. f_equal. eapply cell_in; eassumption.
  - intros i p l Hi Hl Out. destruct (forall2_nth _ _ _ F i p Hi) as (s & Hs & (vs' & V' & ->)).
    apply In_nth_error in Hl. destruct Hl as (j & J).
    exists c, (map (cell nan (labels p) vs') (joined ps)), j. cbn. split; [|split; [assumption|]].
    + erewrite map_nth_error by exact Hs. reflexivity.
    + erewrite map_nth_error by exact J. f_equal. now apply cell_out.
Qed.

Lemma joined_same ps L : Forall (fun p => labels p = [] \/ labels p = L) ps -> Exists (fun p => labels p = L) ps -> joined ps = L.
Proof.
  intros F E. unfold joined.
  assert (F' : Forall (fun b => b = [] \/ b = L) (map labels ps)) by (apply Forall_map; exact F).
  assert (E' : In L (map labels ps)) by (apply Exists_exists in E; destruct E as (p & H1 & <-); now apply in_map).
  destruct (map labels ps) as [|a r]; [destruct E'|]. inversion F'; subst. destruct E' as [->|E']; apply (unions_same L r); auto.
Qed.

(** The loop over the fields. *)
Lemma dict_set_new (data : list (string * frame A)) k v : ~ In k (map fst data) -> dict_set data k v = data ++ [(k, v)].
Proof.
  induction data as [|[k' v'] r IH]; cbn; intros H; [reflexivity|]. destruct (String.eqb_spec k k'); [subst; tauto|]. rewrite IH; tauto.
Qed.
Lemma loop_ok ps (R : string -> frame A -> Prop) : forall cols data,
  NoDup (map fst data ++ cols) ->
  Forall (fun c => exists ss f, mapM (fun p => getitem p c) ps = Ok ss /\ concat_columns nan ss = Ok f /\ R c f) cols ->
  exists fs, transpose_loop nan cols ps data = Ok (data ++ combine cols fs) /\ Forall2 R cols fs.
Proof.
  induction cols as [|c cols IH]; intros data D H; cbn.
  - exists []. rewrite app_nil_r. split; [reflexivity|constructor].
  - inversion H as [|? ? (ss & f & E1 & E2 & E3) H4]; subst. rewrite E1. cbn. rewrite E2. cbn.
    assert (Nc : ~ In c (map fst data)) by (apply NoDup_remove_2 in D; rewrite in_app_iff in D; tauto).
    rewrite dict_set_new by exact Nc.
    destruct (IH (data ++ [(c, f)])) as (fs & I1 & I2); [|assumption|].
    + rewrite map_app. cbn. rewrite <- app_assoc. exact D.
    + exists (f :: fs). split; [|constructor; assumption]. rewrite I1. rewrite <- app_assoc. reflexivity.
Qed.
Theorem transpose_ok first rest : let ps := first :: rest in
  Forall table ps -> Forall (fun p => incl (names first) (names p)) ps ->
  exists data, transpose nan ps = Ok data /\ map fst data = names first /\ Forall (fun d => regrouped nan ps (fst d) (snd d)) data /\
    Forall (fun d => labels (snd d) = joined ps) data /\
    (Forall (fun p => labels p = labels first) ps ->
      Forall (fun d => Forall2 (fun p col => fst col = fst d /\ In col (columns p)) ps (columns (snd d))) data).
Proof.
  intros ps T I. cbn.
  assert (Tf : table first) by (inversion T; assumption).
  destruct (loop_ok ps (fun c f => regrouped nan ps c f /\ labels f = joined ps /\
    (Forall (fun p => labels p = labels first) ps -> Forall2 (fun p col => fst col = c /\ In col (columns p)) ps (columns f))) (names first) []) as (fs & L & F).
  - cbn. apply Tf.
  - apply Forall_forall. intros c Hc.
    destruct (picks c ps T) as (ss & E & P); [eapply Forall_impl; [|exact I]; cbn; intros p Hp; now apply Hp|].
    exists ss, (field ps ss c). split; [assumption|]. split; [apply concat_ok; [discriminate|assumption|assumption]|].
    split; [now apply field_regrouped|]. split; [reflexivity|]. intros S. unfold field. cbn [columns].
    assert (J : joined ps = labels first).
    { apply joined_same; [eapply Forall_impl; [|exact S]; cbn; auto|]. constructor. reflexivity. }
    rewrite J. clear -P T S. clearbody ps. revert T S. induction P as [|p s ps' ss' (vs & V & ->) P IH]; intros T S; cbn; [constructor|].
    inversion T as [|? ? (T1 & T2 & T3) T4]; inversion S as [|? ? S1 S2]; subst. constructor; [|now apply IH]. cbn. split; [reflexivity|].
    rewrite <- S1. rewrite cells_self; [assumption|assumption|]. rewrite Forall_forall in T3. apply (T3 _ V).
  - exists (combine (names first) fs). split; [exact L|]. clear L. split; [|split; [|split]].
    + revert F. generalize (names first). intros l F. induction F; cbn; [reflexivity|now f_equal].
    + revert F. generalize (names first). intros l F. induction F as [|? ? ? ? (? & ? & ?)]; cbn; constructor; auto.
    + revert F. generalize (names first). intros l F. induction F as [|? ? ? ? (? & ? & ?)]; cbn; constructor; auto.
    + intros S. revert F. generalize (names first). intros l F. induction F as [|? ? ? ? (? & ? & ?)]; cbn; constructor; auto.
Qed.
Lemma joined_differ ps : Forall table ps ->
  (exists p q, In p ps /\ In q ps /\ labels p <> [] /\ labels q <> [] /\ labels p <> labels q) -> StronglySorted Z.lt (joined ps).
Proof.
  intros T (p & q & Hp & Hq & Np & Nq & Ne).
  assert (D : Forall (@NoDup Z) (map labels ps)) by (apply Forall_map; eapply Forall_impl; [|exact T]; intros a [H _]; exact H).
  assert (Ip := in_map labels _ _ Hp). assert (Iq := in_map labels _ _ Hq).
  unfold joined. destruct (map labels ps) as [|a r]; [destruct Ip|]. inversion D; subst. apply unions_differ; try assumption. exists (labels p), (labels q). auto.
Qed.
Theorem transpose_missing first rest : let ps := first :: rest in
  Forall table ps -> Exists (fun p => ~ incl (names first) (names p)) ps -> transpose nan ps = Err EKey.
Proof.
  intros ps T X. cbn.
  assert (X' : exists c, In c (names first) /\ Exists (fun p => ~ In c (names p)) ps).
  { apply Exists_exists in X. destruct X as (p & Hp & X).
    assert (Y : exists c, In c (names first) /\ ~ In c (names p)).
    { clear -X. induction (names first) as [|c l IH]; [exfalso; apply X; intros ? []|].
      destruct (in_dec string_dec c (names p)) as [I|I]; [|exists c; cbn; tauto].
      destruct IH as (d & D1 & D2); [|exists d; cbn; tauto]. intros J. apply X. intros e [<-|He]; [assumption|now apply J]. }
    destruct Y as (c & C1 & C2). exists c. split; [assumption|]. apply Exists_exists. eauto. }
  destruct X' as (c & C1 & C2). clear X.
  change (map fst (columns first)) with (names first). revert C1. generalize (@nil (string * frame A)). generalize (names first).
  induction l as [|d l IH]; intros data C1; [destruct C1|]. cbn [transpose_loop].
  destruct (Exists_dec (fun p => ~ In d (names p)) ps) as [D|D].
  { intros p. destruct (in_dec string_dec d (names p)); [right|left]; tauto. }
  - rewrite picks_missing by assumption. reflexivity.
  - destruct C1 as [->|C1]; [contradiction|].
    destruct (picks d ps T) as (ss & E & P).
    { apply Forall_forall. intros p Hp. destruct (in_dec string_dec d (names p)) as [I|I]; [assumption|]. exfalso. apply D. apply Exists_exists. eauto. }
    rewrite E. cbn [bind]. rewrite (concat_ok d ps ss) by (assumption || discriminate). cbn [bind]. now apply IH.
Qed.
Theorem transpose_order first rest data : let ps := first :: rest in
  Forall table ps -> transpose nan ps = Ok data ->
  (forall l, Forall (fun p => labels p = [] \/ labels p = l) ps -> Exists (fun p => labels p = l) ps ->
    Forall (fun d => labels (snd d) = l) data) /\
  ((exists p q, In p ps /\ In q ps /\ labels p <> [] /\ labels q <> [] /\ labels p <> labels q) ->
    Forall (fun d => StronglySorted Z.lt (labels (snd d))) data).
Proof.
  intros ps T E.
  assert (Dec : forall p, {incl (names first) (names p)} + {~ incl (names first) (names p)}).
  { intros p. destruct (Forall_dec (fun c => In c (names p)) (fun c => in_dec string_dec c (names p)) (names first)) as [H|H]; rewrite Forall_forall in H; [left|right]; exact H. }
  destruct (Forall_Exists_dec (fun p => incl (names first) (names p)) Dec ps) as [I|I].
  - destruct (transpose_ok first rest T I) as (data' & E' & _ & _ & J & _). fold ps in E', J. rewrite E in E'. injection E' as <-.
    split.
    + intros l H1 H2. now rewrite (joined_same ps l H1 H2) in J.
    + intros H. eapply Forall_impl; [|exact J]. intros d Ed. cbv beta in Ed. rewrite Ed. now apply joined_differ.
  - exfalso. pose proof (transpose_missing first rest T I) as M. fold ps in M. congruence.
Qed.
(** Repeated row labels. *)
Lemma picks_named c ps : Forall (fun p => NoDup (names p)) ps -> Forall (fun p => In c (names p)) ps ->
  exists ss, mapM (fun p => getitem p c) ps = Ok ss /\ Forall2 (picked c) ps ss.
Proof.
  induction 1 as [|p ps T _ IH]; intros H; [exists []; split; [reflexivity|constructor]|]. inversion H; subst.
  destruct (IH H3) as (ss & E & F). destruct (column_of _ _ H2) as (vs & V).
  exists (mkSeries (labels p) c vs :: ss). split; [|constructor; [exists vs; tauto|assumption]].
  cbn. rewrite (getitem_ok p c vs) by assumption. cbn.
  match goal with |- bind ?e _ = _ => change e with (mapM (fun p => getitem p c) ps) end. rewrite E. reflexivity.
Qed.
Theorem transpose_copies first rest : let ps := first :: rest in
  Forall (fun p => NoDup (names p)) ps -> Forall (fun p => incl (names first) (names p)) ps -> Forall (fun p => labels p = labels first) ps ->
  exists data, transpose nan ps = Ok data /\ map fst data = names first /\
    Forall (fun d => labels (snd d) = labels first /\
      Forall2 (fun p col => fst col = fst d /\ In col (columns p)) ps (columns (snd d))) data.
Proof.
  intros ps T I S. cbn.
  assert (J : joined ps = labels first).
  { apply joined_same; [eapply Forall_impl; [|exact S]; cbn; auto|]. constructor. reflexivity. }
  destruct (loop_ok ps (fun c f => labels f = labels first /\ Forall2 (fun p col => fst col = c /\ In col (columns p)) ps (columns f)) (names first) []) as (fs & L & F).
  - cbn. now inversion T.
  - apply Forall_forall. intros c Hc.
    destruct (picks_named c ps T) as (ss & E & P); [eapply Forall_impl; [|exact I]; cbn; intros p Hp; now apply Hp|].
    exists ss, (mkFrame (labels first) (map (fun s => (c, s_values s)) ss)). split; [assumption|]. split; [|split; [reflexivity|]].
    + pose proof (picked_labels c ps ss P) as Q. unfold concat_columns. destruct ss as [|s ss]; [inversion P|].
      assert (K : fold_left union (map s_labels ss) (s_labels s) = labels first) by (rewrite <- J; unfold joined; rewrite <- Q; reflexivity).
      rewrite K, (mapM_map _ (fun s => (c, s_values s))); [reflexivity|].
      clear -P S. clearbody ps. revert S. induction P as [|p s' ps' ss' (vs & V & ->) P IH]; intros S; [constructor|].
      inversion S as [|? ? S1 S2]; subst. constructor; [|now apply IH]. unfold reindex. cbn [s_labels s_values s_name].
      now rewrite (proj2 (same_labels_spec (labels p) (labels first)) S1).
    + cbn [columns]. clear -P. clearbody ps. induction P as [|p s' ps' ss' (vs & V & ->) P IH]; cbn; constructor; [|exact IH]. split; [reflexivity|exact V].
  - exists (combine (names first) fs). split; [exact L|]. clear L. split.
    + revert F. generalize (names first). intros l F. induction F; cbn; [reflexivity|now f_equal].
    + revert F. generalize (names first). intros l F. induction F; cbn; constructor; auto.
Qed.
Lemma distinct_nodup l : distinct l = true -> NoDup l.
Proof.
  induction l as [|x l IH]; cbn; intros H; [constructor|]. apply andb_prop in H. destruct H as [H1 H2]. constructor; [|now apply IH].
  intros I. apply negb_true_iff in H1. assert (T : existsb (Z.eqb x) l = true) by (apply existsb_exists; exists x; split; [exact I|apply Z.eqb_refl]). congruence.
Qed.
Lemma mapM_fails {B C} (f : B -> res C) l x e : In x l -> f x = Err e -> exists e', mapM f l = Err e'.
Proof.
  intros I E. induction l as [|y l IH]; [destruct I|]. cbn. match goal with |- context [bind ?m _] => lazymatch m with f y => idtac end end.
  destruct (f y) as [v|e'] eqn:Ey; [|exists e'; reflexivity]. cbn. match goal with |- exists _, bind ?m _ = _ => change m with (mapM f l) end.
  destruct I as [->|I]; [congruence|]. destruct (IH I) as (e' & ->). exists e'. reflexivity.
Qed.
Lemma mapM_rel {B C} (f : B -> res C) l : forall m, mapM f l = Ok m -> Forall2 (fun x y => f x = Ok y) l m.
Proof.
  induction l as [|x l IH]; intros m E; cbn in E.
  - injection E as <-. constructor.
  - destruct (f x) as [v|e] eqn:Ex; [|discriminate]. cbn in E. match type of E with bind ?k _ = _ => change k with (mapM f l) in E end.
    destruct (mapM f l) as [w|e]; [|discriminate]. cbn in E. injection E as <-. constructor; [exact Ex|now apply IH].
Qed.
Lemma getitem_labels p c s : getitem p c = Ok s -> s_labels s = labels p.
Proof. unfold getitem. destruct (filter _ _) as [|x [|y r]]; intros E; try discriminate. now injection E as <-. Qed.
Theorem transpose_repeated first rest p q l : let ps := first :: rest in
  names first <> [] -> In p ps -> In q ps -> ~ NoDup (labels p) -> In l (labels q) -> ~ In l (labels p) ->
  exists e, transpose nan ps = Err e.
Proof.
  intros ps Ne Ip Iq D Lq Lp. cbn. change (map fst (columns first)) with (names first). destruct (names first) as [|c cols]; [now contradiction Ne|]. clear Ne. cbn [transpose_loop].
  fold ps. destruct (mapM (fun ts => getitem ts c) ps) as [ss|e] eqn:E; [|exists e; reflexivity]. cbn [bind]. apply mapM_rel in E.
  assert (Q : map s_labels ss = map labels ps) by (clear -E; induction E as [|x y l m H _ IH]; [reflexivity|]; cbn; now rewrite IH, (getitem_labels _ _ _ H)).
  enough (X : exists e, concat_columns nan ss = Err e) by (destruct X as [e ->]; exists e; reflexivity).
  unfold concat_columns. destruct ss as [|s ss]; [inversion E|].
  assert (K : fold_left union (map s_labels ss) (s_labels s) = joined ps) by (unfold joined; rewrite <- Q; reflexivity). rewrite K.
  apply In_nth_error in Ip. destruct Ip as [i Ip]. destruct (forall2_nth _ _ _ E i p Ip) as (s' & Hs & G). apply getitem_labels in G.
  assert (R : reindex nan (joined ps) s' = Err EValue).
  { unfold reindex. rewrite G. destruct (same_labels (labels p) (joined ps)) eqn:W.
    - apply same_labels_spec in W. exfalso. apply Lp. rewrite W. apply joined_in. eauto.
    - destruct (distinct (labels p)) eqn:W'; [|reflexivity]. now apply distinct_nodup in W'. }
  destruct (mapM_fails (fun s => let* v := reindex nan (joined ps) s in Ok (s_name s, v)) (s :: ss) s' EValue) as (e & X); [eapply nth_error_In; exact Hs|now rewrite R|].
  exists e. rewrite X. reflexivity.
Qed.
End F.
