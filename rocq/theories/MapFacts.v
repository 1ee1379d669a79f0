(** * MapFacts: Map, column by column. *)
From Coq Require Import String List ZArith Bool Lia.
From Verif Require Import Num Py PyFacts Tensor Streamable Spec StreamFacts TensorFacts StreamProofs
  WfFacts Meta Common GenuineBase GenuineLib Library EvalFacts RunFacts SpecMeta ComposeFacts InitLib.
Import ListNotations.

Section MapFacts.
Context {N : FOps}.
Hint Resolve genuine_pyok genuine_opt_pyok : core.

(** ** Signatures of rows and of stacks *)
Lemma sig_row i (v : val) : sig (row i v) = vmap (fun p => (tl (fst p), snd p)) (sig v).
Proof. unfold sig, row. rewrite !vmap_vmap. apply vmap_ext. intros [s [l|l|l]] _; reflexivity. Qed.
Lemma sk_row i (v : val) : sk (row i v) = sk v.
Proof. unfold row. apply sk_vmap. Qed.
Lemma sig_tall m (v : val) : m_tall m v -> sig v = vmap (fun p => (m :: fst p, snd p)) (sig (row 0 v)).
Proof.
  intros H. unfold sig, row. rewrite !vmap_vmap. apply vmap_ext. intros [s d] Ht.
  unfold m_tall in H. rewrite Forall_forall in H. destruct (H _ Ht) as (r & E). cbn in E. subst s. unfold tsig, trow. cbn.
  now destruct d.
Qed.
Lemma tall_sig m (v w : val) : sig v = sig w -> m_tall m v -> m_tall m w.
Proof.
  intros E H. unfold m_tall in *.
  assert (K : forall u : val, Forall (fun t => exists s, sh t = m :: s) (leaves u) <-> Forall (fun p => exists s, fst p = m :: s) (leaves (sig u))).
  { intros u. unfold sig. rewrite leaves_vmap, Forall_map. reflexivity. }
  apply K. rewrite <- E. now apply K.
Qed.
Lemma series_tall m (v : val) : is_series m v <-> leaves v <> [] /\ m_tall m v.
Proof. reflexivity. Qed.
Lemma genuine_row_tall m i (v : val) : genuine v -> m_tall m v -> i < m -> genuine (row i v).
Proof.
  intros G H Hi. destruct (leaves v) as [|t l] eqn:E.
  - destruct G as [P _]. split; [now apply pyok_row|]. unfold row. rewrite leaves_vmap, E. constructor.
  - apply (genuine_row m); auto. split; [rewrite E; discriminate|exact H].
Qed.
Lemma slice_at_tall m (v : val) i : pyok v -> m_tall m v -> i < m -> slice_at (Z.of_nat i) v = Ok (row i v).
Proof.
  intros Hok Hs Hi. rewrite slice_at_eq by assumption.
  apply vmapM_ok; auto. intros t Ht. unfold m_tall in Hs. rewrite Forall_forall in Hs.
  destruct (Hs t Ht) as (s & E). now apply (index0_row m s).
Qed.
Lemma state_check_inv (s s' : val) : pyok s -> sk s' = sk s -> state_check s s' = Ok tt -> sig s' = sig s.
Proof.
  intros P Hk H. assert (P' : pyok s') by (apply pyok_sk; rewrite Hk; now apply pyok_sk).
  apply state_check_ok in H as [H1 H2]; auto.
  assert (Pn := pyok_number s P). assert (E := numbered s s eq_refl). assert (E' := numbered s' s Hk).
  rewrite E, E'. unfold sig. rewrite !vmap_vmap. apply vmap_ext. intros j Hj. unfold tsig. f_equal.
  - unfold check_shapes in H2. apply bind_ok in H2 as (u & H2 & _).
    rewrite E in H2 at 1 2. rewrite E' in H2.
    change [vmap (getleaf s) (number 0 s); vmap (getleaf s') (number 0 s)] with
      (map (fun g => vmap g (number 0 s)) [getleaf s; getleaf s']) in H2.
    rewrite map_fn_vmap in H2 by assumption.
    rewrite (vmapM_ext _ (fun i => let* y := (if shape_eqb (sh (getleaf s i)) (sh (getleaf s' i)) then Ok tt else Err EShape) in Ok (Leaf y))) in H2.
    2:{ intros i _. cbn [map]. now destruct (shape_eqb _ _). }
    destruct (vmapM_inv _ _ _ H2 j Hj) as (y & Hy).
    destruct (shape_eqb _ _) eqn:Q; [|discriminate]. apply shape_eqb_eq in Q. now symmetry.
  - unfold same_types in H1. rewrite E, E', !vmap_vmap in H1. rewrite pv_eqb_vmap in H1 by assumption.
    rewrite forallb_forall in H1. specialize (H1 j Hj). apply dtype_eqb_eq in H1. now symmetry.
Qed.
Lemma arr_facts n o0 os outs : genuine o0 -> Forall genuine os -> Forall (fun o => sk o = sk o0) os -> length os = n -> n > 0 ->
  arr n o0 os outs ->
  genuine outs /\ m_tall n outs /\ sk outs = sk o0 /\ rows n outs = os.
Proof.
  intros G0 G E L Hp A. destruct A as (tas & tasf & H1 & H2 & H3).
  destruct (arrays_rows o0 os n tas tasf outs) as [Go R]; auto.
  assert (ER := rows_eq n outs os L R).
  split; [exact Go|]. split; [|split; [|exact ER]].
  - destruct (leaves outs) as [|t l] eqn:Q; [unfold m_tall; rewrite Q; constructor|].
    apply (arr_series n o0 os outs); auto; [exists tas, tasf; auto|rewrite Q; discriminate].
  - rewrite <- (sk_row 0 outs). rewrite (R 0) by lia. destruct os as [|o os]; [cbn in L; lia|]. now inversion E.
Qed.
Lemma arr_exists n o0 os : pyok o0 -> Forall (fun o => sig o = sig o0) os -> length os = n -> n > 0 -> exists outs, arr n o0 os outs.
Proof.
  intros P E L Hp. destruct (arrays_exist o0 os n P E L Hp) as (tas & tasf & outs & H). exists outs, tas, tasf. exact H.
Qed.

(** ** One call of Map *)
Fixpoint mcells (op : operator) (x s : val) (js : list nat) : res (list val * list val) :=
  match js with
  | [] => Ok ([], [])
  | j :: r =>
      let* (o, s', _) := forward_step op (row j x) (Some (row j s)) in
      let* (os, ss) := mcells op x s r in
      Ok (o :: os, s' :: ss)
  end.
Lemma mcells_cons op x s j js os ss : mcells op x s (j :: js) = Ok (os, ss) <->
  exists o s' i os' ss', forward_step op (row j x) (Some (row j s)) = Ok (o, s', i) /\
    mcells op x s js = Ok (os', ss') /\ os = o :: os' /\ ss = s' :: ss'.
Proof.
  cbn [mcells]. split.
  - intros H. apply bind_ok in H as ([[o s'] i] & H1 & H). apply bind_ok in H as ([os' ss'] & H2 & H). injection H as <- <-.
    exists o, s', i, os', ss'. auto.
  - intros (o & s' & i & os' & ss' & H1 & H2 & -> & ->). rewrite H1. cbn [bind]. now rewrite H2.
Qed.
Lemma mcells_nth op x s m : forall k os ss, mcells op x s (seq k m) = Ok (os, ss) ->
  length os = m /\ length ss = m /\
  forall j, j < m -> exists i, forward_step op (row (k + j) x) (Some (row (k + j) s)) = Ok (nth j os (Tup []), nth j ss (Tup []), i).
Proof.
  induction m as [|m IH]; intros k os ss H; [injection H as <- <-; repeat split; intros; lia|].
  cbn [seq] in H. apply mcells_cons in H as (o & s' & i & os' & ss' & H1 & H2 & -> & ->).
  destruct (IH (S k) os' ss' H2) as (L1 & L2 & H3). cbn [length]. split; [lia|]. split; [lia|].
  intros [|j] Hj.
  - rewrite Nat.add_0_r. exists i. exact H1.
  - replace (k + S j) with (S k + j) by lia. cbn [nth]. apply H3. lia.
Qed.
Lemma mcells_exists op x s m : forall k, 
  (forall j, j < m -> exists o s' i, forward_step op (row (k + j) x) (Some (row (k + j) s)) = Ok (o, s', i)) ->
  exists os ss, mcells op x s (seq k m) = Ok (os, ss).
Proof.
  induction m as [|m IH]; intros k H; [exists [], []; reflexivity|].
  destruct (H 0) as (o & s' & i & H1); [lia|]. rewrite Nat.add_0_r in H1.
  destruct (IH (S k)) as (os & ss & H2). { intros j Hj. replace (S k + j) with (k + S j) by lia. apply H. lia. }
  exists (o :: os), (s' :: ss). cbn [seq]. apply mcells_cons. exists o, s', i, os, ss. auto.
Qed.
Lemma same_structure_ok (a b : val) : pyok a -> sk b = sk a -> assert_same_structure a b = Ok tt.
Proof.
  intros P E. unfold assert_same_structure. rewrite (numbered a a eq_refl), (numbered b a E).
  rewrite pv_eqb_vmap by now apply pyok_number. replace (forallb _ _) with true; [reflexivity|].
  symmetry. now apply forallb_forall.
Qed.

(** Called on the rows of [x] from those of [s], [op] keeps the structure of [s] and gives outputs of the structure [z]. *)
Definition kept_rows (op : operator) (x s : val) (m : nat) (z : pyval unit) : Prop :=
  forall j o s' i, m_tall m s -> j < m -> forward_step op (row j x) (Some (row j s)) = Ok (o, s', i) -> sk s' = sk s /\ sk o = z.
Lemma keeps_kept op x s m z : genuine x -> genuine s -> is_series m x -> keeps_structure op (sk s) z (rows m x) -> kept_rows op x s m z.
Proof.
  intros Gx Gs Hx K j o s' i Ts Hj H. assert (G1 : genuine (row j x)) by now apply (genuine_row m).
  assert (G2 : genuine (row j s)) by now apply (genuine_row_tall m).
  apply (K (row j x) (row j s) o s' i).
  - apply in_map_iff. exists j. split; [reflexivity|]. apply in_seq. lia.
  - exact G2.
  - apply sk_row.
  - rewrite call_false_g; auto.
Qed.
Section Step.
Variables (op : operator) (x s : val) (m : nat) (z : pyval unit).
Hypothesis Gop : genuine_op op.
Hypothesis Gx : genuine x.
Hypothesis Gs : genuine s.
Hypothesis Hx : is_series m x.
Hypothesis K : kept_rows op x s m z.
Lemma kept j o s' i : m_tall m s -> j < m -> forward_step op (row j x) (Some (row j s)) = Ok (o, s', i) ->
  genuine o /\ genuine s' /\ sk s' = sk s /\ sk o = z.
Proof.
  intros Ts Hj H. assert (G1 : genuine (row j x)) by now apply (genuine_row m).
  assert (G2 : genuine (row j s)) by now apply (genuine_row_tall m).
  destruct (Gop _ (Some (row j s)) _ _ _ G1 G2 H) as (Go & Gs' & _). split; [exact Go|]. split; [exact Gs'|].
  now apply (K j o s' i).
Qed.
Lemma mwhile ov : genuine ov -> sk ov = z -> m_tall m s -> forall fuel i a b i' a' b', i + fuel = m ->
  tf_while fuel (fun v : nat * tavals * tavals => Nat.ltb (fst (fst v)) m) (map_body op x s ov) (i, a, b) = Ok (i', a', b') <->
  i' = m /\ exists os ss, mcells op x s (seq i fuel) = Ok (os, ss) /\ write_from i os a = Ok a' /\ write_from i ss b = Ok b'.
Proof.
  intros Gov Eov Ts. induction fuel as [|fuel IH]; intros i a b i' a' b' Hi.
  - cbn [tf_while fst]. replace (Nat.ltb i m) with false by (symmetry; apply Nat.ltb_ge; lia). cbn [seq mcells]. split.
    + intros H. injection H as <- <- <-. split; [lia|]. exists [], []. auto.
    + intros (-> & os & ss & H & W1 & W2). injection H as <- <-. cbn in W1, W2. injection W1 as <-. injection W2 as <-.
      replace i with m by lia. reflexivity.
  - cbn [tf_while fst]. replace (Nat.ltb i m) with true by (symmetry; apply Nat.ltb_lt; lia). cbn [seq].
    unfold map_body at 1. rewrite (slice_at_ok m) by (auto; lia). cbn [bind].
    rewrite (slice_at_tall m) by (auto; lia). cbn [bind].
    assert (G1 : genuine (row i x)) by (apply (genuine_row m); auto; lia).
    assert (G2 : genuine (row i s)) by (apply (genuine_row_tall m); auto; lia).
    rewrite call_false_g by auto.
    destruct (forward_step op (row i x) (Some (row i s))) as [[[o s'] i0]|e] eqn:F; cbn [bind].
    2:{ split; [discriminate|]. intros (_ & os & ss & H & _). apply mcells_cons in H as (? & ? & ? & ? & ? & H & _). congruence. }
    destruct (kept i o s' i0) as (Go & Gs' & E1 & E2); auto; [lia|].
    rewrite same_structure_ok by (auto; congruence). cbn [bind]. rewrite same_structure_ok by auto. cbn [bind].
    split.
    + intros H. apply bind_ok in H as ([[i1 a1] b1] & H1 & H). apply bind_ok in H1 as (a2 & W1 & H1). apply bind_ok in H1 as (b2 & W2 & H1).
      injection H1 as <- <- <-. apply IH in H as (-> & os & ss & H2 & W3 & W4); [|lia]. split; [reflexivity|].
      exists (o :: os), (s' :: ss). split; [apply mcells_cons; exists o, s', i0, os, ss; auto|]. cbn [write_from].
      rewrite W1, W2. cbn [bind]. auto.
    + intros (-> & os & ss & H & W1 & W2). apply mcells_cons in H as (? & ? & ? & os' & ss' & H & H2 & -> & ->).
      rewrite F in H. injection H as <- <- <-. cbn [write_from] in W1, W2.
      apply bind_ok in W1 as (a1 & W1 & W3). apply bind_ok in W2 as (b1 & W2 & W4). rewrite W1, W2. cbn [bind].
      apply IH; [lia|]. split; [reflexivity|]. exists os', ss'. auto.
Qed.
Lemma size_pair k : input_size (Tup [x; s]) = Ok k <-> k = m /\ m_tall m s.
Proof.
  rewrite input_size_ok by (apply pyok_tup; repeat constructor; auto). unfold is_series, m_tall. cbn [leaves flat_map].
  rewrite app_nil_r, Forall_app. split.
  - intros (_ & H1 & H2). destruct Hx as [NE H]. assert (k = m) as ->; [|auto].
    apply (series_unique k m x); split; auto.
  - intros (-> & H). destruct Hx as [NE H']. split; [|auto]. intros E. apply app_eq_nil in E. tauto.
Qed.
Lemma map_fwd n o s' i : m > 0 -> (forall o' t i', forward_step op (row 0 x) None = Ok (o', t, i') -> sk o' = z) ->
  forward_step (Map op n) x (Some (Tup [s])) = Ok (o, s', i) <->
  m_tall m s /\ exists ov t iv os ss ns, forward_step op (row 0 x) None = Ok (ov, t, iv) /\
    mcells op x s (seq 0 m) = Ok (os, ss) /\ arr m ov os o /\ arr m s ss ns /\ s' = Tup [ns] /\ i = Tup [s].
Proof.
  intros Hp P. cbn [forward_step Map]. unfold map_step. change 0%Z with (Z.of_nat 0). rewrite (slice_at_ok m) by auto. cbn [bind].
  assert (G1 : genuine (row 0 x)) by now apply (genuine_row m). rewrite call_false_g by (auto; exact I).
  destruct (forward_step op (row 0 x) None) as [[[ov t] iv]|e] eqn:F; cbn [bind].
  2:{ split; [discriminate|]. intros (_ & ov & t & iv & os & ss & ns & H & _). discriminate. }
  destruct (Gop _ None _ _ _ G1 I F) as (Gov & _ & _). specialize (P _ _ _ eq_refl).
  cbn [item nth_error bind]. unfold tf_map_fn. split.
  - intros H. apply bind_ok in H as ([o' ns] & H1 & H). injection H as <- <- <-.
    apply bind_ok in H1 as (k & Hk & H1). apply size_pair in Hk as [-> Ts]. split; [exact Ts|].
    apply bind_ok in H1 as (tas & Ht & H1). apply bind_ok in H1 as (tbs & Htb & H1).
    apply bind_ok in H1 as ([[i' a'] b'] & Hw & H1). apply bind_ok in H1 as (u & Hu & H1). apply bind_ok in H1 as (w & Hw' & H1).
    injection H1 as <- <-. apply (mwhile ov Gov P Ts) in Hw as (_ & os & ss & H2 & W1 & W2); [|lia].
    exists ov, t, iv, os, ss, w. split; [reflexivity|]. split; [exact H2|]. split; [exists tas, a'; auto|]. split; [exists tbs, b'; auto|auto].
  - intros (Ts & ov' & t' & iv' & os & ss & ns & H & H2 & (tas & a' & A1 & A2 & A3) & (tbs & b' & B1 & B2 & B3) & -> & ->).
    injection H as <- <- <-. rewrite (proj2 (size_pair m)) by auto. cbn [bind]. rewrite A1, B1. cbn [bind].
    assert (W := proj2 (mwhile ov Gov P Ts m 0 tas tbs m a' b' eq_refl)). rewrite W by (split; eauto 6). cbn [bind].
    rewrite A3, B3. reflexivity.
Qed.
End Step.

(** ** Streaming Map *)
Lemma rows_nth m (v : val) j os : rows m v = os -> j < m -> row j v = nth j os (Tup []).
Proof.
  intros <- Hj. unfold rows. rewrite (nth_indep _ _ (row 0 v)) by (rewrite map_length, seq_length; lia).
  rewrite (map_nth (fun i => row i v) (seq 0 m) 0). now rewrite seq_nth by lia.
Qed.
Lemma keeps_sub op zs z xs ys : keeps_structure op zs z xs -> incl ys xs -> keeps_structure op zs z ys.
Proof. intros K I x s o s' i Hx. apply K. auto. Qed.
Lemma nth_P {A} (P : A -> Prop) (l : list A) d : (forall j, j < length l -> P (nth j l d)) -> Forall P l.
Proof. intros H. apply Forall_forall. intros a Ha. destruct (In_nth l a d Ha) as (j & Hj & <-). auto. Qed.

Section Run.
Variables (op : operator) (m n : nat) (z : pyval unit).
Hypothesis Gop : genuine_op op.
Hypothesis Hm : m > 0.
(** One step. *)
Lemma map_once' x s o s' i : genuine x -> genuine s -> is_series m x -> kept_rows op x s m z ->
  (forall o' t i', forward_step op (row 0 x) None = Ok (o', t, i') -> sk o' = z) ->
  forward_step (Map op n) x (Some (Tup [s])) = Ok (o, s', i) ->
  m_tall m s /\ i = Tup [s] /\ exists ns, s' = Tup [ns] /\ genuine o /\ genuine ns /\ m_tall m o /\ m_tall m ns /\ sk o = z /\ sk ns = sk s /\
  forall j, j < m -> exists i', forward_step op (row j x) (Some (row j s)) = Ok (row j o, row j ns, i').
Proof.
  intros Gx Gs Hx K P H. apply (map_fwd op x s m z) in H as (Ts & ov & t & iv & os & ss & ns & H0 & H1 & A & B & -> & ->); auto.
  split; [exact Ts|]. split; [reflexivity|]. exists ns. split; [reflexivity|].
  destruct (mcells_nth op x s m 0 os ss H1) as (L1 & L2 & H2). cbn [Nat.add] in H2.
  assert (Gr : genuine (row 0 x)) by now apply (genuine_row m).
  destruct (Gop _ None _ _ _ Gr I H0) as (Gov & _ & _). specialize (P _ _ _ H0).
  assert (Q : forall j, j < m -> genuine (nth j os (Tup [])) /\ genuine (nth j ss (Tup [])) /\ sk (nth j ss (Tup [])) = sk s /\ sk (nth j os (Tup [])) = z).
  { intros j Hj. destruct (H2 j Hj) as (i' & H3). now apply (kept op x s m z Gop Gx Gs Hx K j _ _ i'). }
  destruct (arr_facts m ov os o) as (Go & To & Eo & Ro); auto.
  { apply (nth_P _ _ (Tup [])). intros j Hj. apply Q. rewrite <- L1. exact Hj. }
  { apply (nth_P _ _ (Tup [])). intros j Hj. rewrite P. apply Q. rewrite <- L1. exact Hj. }
  destruct (arr_facts m s ss ns) as (Gns & Tns & Ens & Rns); auto.
  { apply (nth_P _ _ (Tup [])). intros j Hj. apply Q. rewrite <- L2. exact Hj. }
  { apply (nth_P _ _ (Tup [])). intros j Hj. apply Q. rewrite <- L2. exact Hj. }
  split; [exact Go|]. split; [exact Gns|]. split; [exact To|]. split; [exact Tns|]. split; [congruence|]. split; [exact Ens|].
  intros j Hj. destruct (H2 j Hj) as (i' & H3). exists i'. now rewrite (rows_nth m o j os), (rows_nth m ns j ss).
Qed.
Lemma map_once x s o s' i : genuine x -> genuine s -> is_series m x -> keeps_structure op (sk s) z (rows m x) ->
  (forall o' t i', forward_step op (row 0 x) None = Ok (o', t, i') -> sk o' = z) ->
  forward_step (Map op n) x (Some (Tup [s])) = Ok (o, s', i) ->
  m_tall m s /\ i = Tup [s] /\ exists ns, s' = Tup [ns] /\ genuine o /\ genuine ns /\ m_tall m o /\ m_tall m ns /\ sk o = z /\ sk ns = sk s /\
  forall j, j < m -> exists i', forward_step op (row j x) (Some (row j s)) = Ok (row j o, row j ns, i').
Proof. intros Gx Gs Hx K. apply map_once'; auto. now apply keeps_kept. Qed.
Lemma check_tup1 (s s' : val) : genuine s -> genuine s' -> state_check (Tup [s]) (Tup [s']) = Ok tt <-> state_check s s' = Ok tt.
Proof.
  intros G G'. rewrite state_check_cons by (apply genuine_tup; auto). split; [tauto|]. intros H. split; [exact H|reflexivity].
Qed.
Lemma map_steps xs : Forall genuine xs -> Forall (is_series m) xs ->
  (forall x, In x xs -> forall o' t i', forward_step op (row 0 x) None = Ok (o', t, i') -> sk o' = z) ->
  forall s os sf, genuine s -> keeps_structure op (sk s) z (flat_map (rows m) xs) ->
  stepsC (Map op n) (Tup [s]) xs = Ok (os, sf) ->
  exists ns, sf = Tup [ns] /\ Forall (fun o => genuine o /\ m_tall m o /\ sk o = z) os /\
    forall j, j < m -> stepsC op (row j s) (map (row j) xs) = Ok (map (row j) os, row j ns).
Proof.
  induction xs as [|x xs IH]; intros Gx Hx P s os sf Gs K H.
  - injection H as <- <-. exists s. repeat split; auto.
  - inversion Gx; subst. inversion Hx; subst. rewrite stepsC_G in H.
    apply stepsG_cons in H as (o & s' & i & os' & H0 & C & H & ->). rewrite <- stepsC_G in H.
    apply map_once in H0 as (Ts & -> & ns & -> & Go & Gns & To & Tns & Eo & Ens & H0); auto.
    2:{ eapply keeps_sub; [exact K|]. cbn [flat_map]. intros y Hy. apply in_or_app. auto. }
    2:{ apply P. now left. }
    apply (proj1 (check_tup1 s ns Gs Gns)) in C. apply state_check_inv in C; auto.
    destruct (IH H3 H5 (fun y Hy => P y (or_intror Hy)) ns os' sf Gns) as (ns' & -> & F & R); auto.
    { rewrite Ens. eapply keeps_sub; [exact K|]. cbn [flat_map]. intros y Hy. apply in_or_app. auto. }
    exists ns'. split; [reflexivity|]. split; [constructor; auto|]. intros j Hj. cbn [map].
    destruct (H0 j Hj) as (i' & H1'). rewrite stepsC_G. apply stepsG_cons.
    exists (row j o), (row j ns), i', (map (row j) os'). split; [exact H1'|]. split; [|split; [rewrite <- stepsC_G; auto|reflexivity]].
    apply state_check_sig; [apply pyok_row; auto|]. rewrite !sig_row. exact (f_equal _ C).
Qed.
End Run.

Lemma row_series T m i v : has_columns T m v -> is_series m (row i v).
Proof.
  intros [_ [NE H]]. apply series_tall. split; [unfold row in *; rewrite leaves_vmap in *; intros E; apply map_eq_nil in E; now rewrite E in NE|].
  apply (tall_sig m (row 0 v)); [now rewrite !sig_row|exact H].
Qed.
Lemma rows_series T m v : has_columns T m v -> Forall (is_series m) (rows T v).
Proof. intros H. apply Forall_map, Forall_forall. intros i _. now apply (row_series T). Qed.
Lemma column_rows T j v w : is_column T j v w -> rows T w = map (row j) (rows T v).
Proof.
  intros (_ & _ & H). unfold rows. rewrite map_map. apply map_ext_in. intros i Hi. apply in_seq in Hi. apply H. lia.
Qed.
Lemma rows_vmap_eq T (v : val) os : rows T v = os -> forall i, i < T -> row i v = nth i os (Tup []).
Proof. intros H i Hi. now apply (rows_nth T). Qed.

Theorem map_columns op n T m v s outs sf s0 z :
  genuine v -> genuine s -> genuine_op op -> has_columns T m v -> m > 0 ->
  keeps_structure op (sk s) z (elements T m v) ->
  (forall i o t i', i < T -> call op (row 0 (row i v)) None false = Ok (o, t, i') -> sk o = z) ->
  call (Map op n) v (Some (Tup [s])) true = Ok (outs, sf, s0) ->
  s0 = Tup [s] /\ exists ns, sf = Tup [ns] /\
    forall j w, j < m -> is_column T j v w -> exists out,
      call op w (Some (row j s)) true = Ok (out, row j ns, row j s) /\
      forall i, i < T -> row i out = row j (row i outs).
Proof.
  intros Gv Gs Gop Hc Hm K P H. assert (Gt : genuine (Tup [s])) by (apply genuine_tup; auto).
  assert (GM := genuine_map op n Gop).
  destruct (streamed_start _ v (Some (Tup [s])) T outs sf _ Gv Gt GM (proj1 Hc) H)
    as (Hpos & Gs0 & Hstart & o0 & s1 & i0 & os & tas & tasf & Hf & E0 & Go0 & HC & HS & Gos & L & Gsf & A1 & A2 & A3).
  subst s0. split; [reflexivity|].
  assert (Gx := genuine_rows T v Gv (proj1 Hc)). assert (Hx := rows_series T m v Hc).
  assert (P' : forall x, In x (rows T v) -> forall o' t i', forward_step op (row 0 x) None = Ok (o', t, i') -> sk o' = z).
  { intros x Hin o' t i' Q. apply in_map_iff in Hin as (i & <- & Hi). apply in_seq in Hi.
    apply (P i o' t i'); [lia|]. rewrite call_false_g; auto; [|exact I].
    apply (genuine_row m); auto; [apply (genuine_row T); [auto|apply Hc|lia]|now apply (row_series T)]. }
  destruct (map_steps op m n z Gop Hm (rows T v) Gx Hx P' s os sf Gs K HC) as (ns & -> & F & R).
  exists ns. split; [reflexivity|]. intros j w Hj Hw.
  assert (Ez : sk o0 = z).
  { apply (map_once op m n z Gop Hm (row 0 v) s o0 s1 i0) in Hf as (_ & _ & ns0 & _ & _ & _ & _ & _ & E & _); auto.
    - apply (genuine_row T); auto. apply Hc.
    - now apply (row_series T).
    - eapply keeps_sub; [exact K|]. intros y Hy. unfold elements. apply in_flat_map. exists (row 0 v). split; [|exact Hy].
      apply in_map_iff. exists 0. split; [reflexivity|apply in_seq; lia].
    - apply P'. apply in_map_iff. exists 0. split; [reflexivity|apply in_seq; lia]. }
  destruct (arr_facts T o0 os outs) as (Go & To & Eo & Ro); auto.
  { eapply Forall_impl; [|exact F]. intros o (_ & _ & E). congruence. }
  { exists tas, tasf. auto. }
  specialize (R j Hj). rewrite <- (column_rows T j v w Hw) in R. destruct Hw as (Gw & Sw & Rw).
  assert (Tz : m_tall m s).
  { apply (map_once op m n z Gop Hm (row 0 v) s o0 s1 i0) in Hf as (Ts & _); auto.
    - apply (genuine_row T); auto. apply Hc.
    - now apply (row_series T).
    - eapply keeps_sub; [exact K|]. intros y Hy. unfold elements. apply in_flat_map. exists (row 0 v). split; [|exact Hy].
      apply in_map_iff. exists 0. split; [reflexivity|apply in_seq; lia].
    - apply P'. apply in_map_iff. exists 0. split; [reflexivity|apply in_seq; lia]. }
  assert (Gj : genuine (row j s)) by now apply (genuine_row_tall m).
  assert (Sg : Forall (fun o => sig o = sig (row j (row 0 outs))) (map (row j) os)).
  { rewrite <- Ro. apply Forall_map. unfold rows. apply Forall_map, Forall_forall. intros i _. now rewrite !sig_row. }
  assert (Hfw : exists o1 s2 i1, forward_step op (row 0 w) (Some (row j s)) = Ok (o1, s2, i1) /\ o1 = row j (row 0 outs)).
  { destruct T as [|T]; [lia|]. unfold rows in R, Ro. cbn [seq map] in R, Ro. rewrite <- Ro in R. rewrite stepsC_G in R.
    apply stepsG_cons in R as (o1 & s2 & i1 & os' & R1 & _ & _ & E). cbn [map] in E. injection E as E1 E2. exists o1, s2, i1. auto. }
  destruct Hfw as (o1 & s2 & i1 & Hfw & ->).
  assert (Pr : genuine (row j (row 0 outs))).
  { apply (Gop _ (Some (row j s)) _ _ _) in Hfw as (G1 & _); auto. now apply (genuine_row T). }
  destruct (complete_core op w (Some (row j s)) T (row j s) (row j (row 0 outs)) s2 i1 (map (row j) os) (row j ns))
    as (tas' & tasf' & out & C & B1 & B2 & B3); auto.
  { now rewrite map_length. }
  exists out. split; [exact C|]. intros i Hi.
  destruct (arr_facts T (row j (row 0 outs)) (map (row j) os) out) as (_ & _ & _ & Rr); auto.
  { apply (stepsG_genuine _ op Gop) with (1 := Gj) (2 := genuine_rows T w Gw Sw) in R as (Gr & _). exact Gr. }
  { eapply Forall_impl; [|exact Sg]. intros o. apply sig_sk. }
  { now rewrite map_length. }
  { exists tas', tasf'. auto. }
  rewrite (rows_vmap_eq T out _ Rr i Hi). rewrite <- Ro. rewrite (nth_indep _ _ (row j (row 0 outs))) by (rewrite map_length, rows_length; lia).
  rewrite map_nth. f_equal. unfold rows. rewrite (map_nth (fun k => row k outs) (seq 0 T) 0). now rewrite seq_nth by lia.
Qed.

(** ** The initial state: the one of the operator, once per column *)
Lemma firstn_skipn_repeat {A} (l : list A) n j : j < n ->
  firstn (length l) (skipn (j * length l) (concat (repeat l n))) = l.
Proof.
  revert n. induction j as [|j IH]; intros [|n] Hj; try lia; cbn [repeat concat Nat.mul].
  - cbn [skipn]. rewrite firstn_app, firstn_all, Nat.sub_diag. cbn. apply app_nil_r.
  - rewrite skipn_app, (skipn_all2 l) by lia. cbn [app].
    replace (length l + j * length l - length l) with (j * length l) by lia. apply IH. lia.
Qed.
Lemma trow_tile n t j : wf t -> j < n -> trow j (tile0 n t) = t.
Proof.
  intros W Hj. destruct t as [s [l|l|l]]; unfold wf in W; cbn [sh dat dlen] in W; unfold trow, tile0, lslice; cbn [sh dat tl dslice]; unfold lslice;
    rewrite <- W; f_equal; f_equal; now apply firstn_skipn_repeat.
Qed.
Lemma row_tile n (v : val) j : genuine v -> j < n \/ leaves v = [] -> row j (vmap (tile0 n) v) = v.
Proof.
  intros [_ W] Hj. unfold row. rewrite vmap_vmap. rewrite <- (vmap_id v) at 2. apply vmap_ext. intros t Ht.
  destruct Hj as [Hj|E]; [|rewrite E in Ht; destruct Ht]. rewrite Forall_forall in W. now apply trow_tile; auto.
Qed.
Lemma tall_tile n (v : val) : m_tall n (vmap (tile0 n) v).
Proof. unfold m_tall. rewrite leaves_vmap, Forall_map. apply Forall_forall. intros t _. exists (sh t). reflexivity. Qed.
Lemma genuine_tile n (v : val) : genuine v -> genuine (vmap (tile0 n) v).
Proof.
  intros [P W]. split; [now apply pyok_vmap|]. rewrite leaves_vmap, Forall_map. eapply Forall_impl; [|exact W]. intros t. apply wf_tile0.
Qed.
Lemma map_fresh op n x ov t i0 m : genuine x -> genuine_op op -> is_series m x -> m > 0 -> forward_step op (row 0 x) None = Ok (ov, t, i0) ->
  forward_step (Map op n) x None = forward_step (Map op n) x (Some (Tup [vmap (tile0 n) i0])).
Proof.
  intros Gx Gop Hx Hm H. assert (Gr : genuine (row 0 x)) by now apply (genuine_row m).
  destruct (Gop _ None _ _ _ Gr I H) as (_ & _ & Gi).
  cbn [forward_step Map]. unfold map_step. change 0%Z with (Z.of_nat 0). rewrite (slice_at_ok m) by auto. cbn [bind].
  rewrite call_false_g by (auto; exact I). rewrite H. cbn [bind].
  assert (E : map_fn (fun l : list (pyval tensor) => match l with
                      | [Leaf x] => Ok (Leaf (tile0 n x))
                      | _ => Err EType end) i0 [i0] = Ok (vmap (tile0 n) i0)) by (apply map_fn1_pure; auto).
  rewrite E. reflexivity.
Qed.
Lemma init_streamed op v o sf s0 : genuine v -> genuine_op op -> init_consistent op (row 0 v) ->
  call op v None true = Ok (o, sf, s0) -> call op v (Some s0) true = Ok (o, sf, s0).
Proof.
  intros Gv Gop Hi H. assert (X : exists n, is_series n v) by (eapply series_of_call; [apply Gv| |exact H]; exact I).
  destruct X as (n & Hn). assert (X := streamed_start op v None n o sf s0 Gv I Gop Hn H). destruct X as (Hp & Gs0 & _).
  assert (X := proj1 (call_iff op v None n o sf s0 Gv I Hn) H). destruct X as (_ & o0 & s1 & i0 & os & H1 & E & H2 & A). cbn [start_of] in E. subst s0.
  apply (call_iff op v (Some i0) n); auto. split; [exact Hp|]. exists o0, s1, i0, os. split; [|auto].
  assert (Gr : genuine (row 0 v)) by now apply (genuine_row n). specialize (Hi o0 s1 i0).
  rewrite !call_false_g in Hi by (auto; exact I). auto.
Qed.
Lemma streamed_init op v n o sf s0 o1 s1 : genuine v -> genuine_op op -> is_series n v -> n > 0 -> init_consistent op (row 0 v) ->
  call op (row 0 v) None false = Ok (o1, s1, s0) -> call op v (Some s0) true = Ok (o, sf, s0) -> call op v None true = Ok (o, sf, s0).
Proof.
  intros Gv Gop Hn Hp Hi H1 H. assert (Gr : genuine (row 0 v)) by now apply (genuine_row n). assert (Hc := Hi _ _ _ H1).
  rewrite call_false_g in H1 by (auto; exact I). destruct (Gop _ None _ _ _ Gr I H1) as (_ & _ & Gs0).
  rewrite call_false_g in Hc by auto.
  assert (X := proj1 (call_iff op v (Some s0) n o sf s0 Gv Gs0 Hn) H). destruct X as (_ & o0 & s2 & i0 & os & H2 & E & H3 & A).
  apply (call_iff op v None n); auto; [exact I|]. split; [exact Hp|]. exists o0, s2, s0, os. split; [|auto].
  rewrite Hc in H2. injection H2 as <- <- <-. exact H1.
Qed.
Theorem map_columns_fresh op n T m v outs sf s0 z i0 :
  genuine v -> genuine_op op -> has_columns T m v -> m > 0 ->
  (forall j, j < m -> init_consistent op (row j (row 0 v)) /\ exists o t, call op (row j (row 0 v)) None false = Ok (o, t, i0)) ->
  keeps_structure op (sk i0) z (elements T m v) ->
  (forall i o t i', i < T -> call op (row 0 (row i v)) None false = Ok (o, t, i') -> sk o = z) ->
  call (Map op n) v None true = Ok (outs, sf, s0) ->
  (leaves i0 <> [] -> m = n) /\
  exists s ns, s0 = Tup [s] /\ sf = Tup [ns] /\ forall j w, j < m -> row j s = i0 /\
    (is_column T j v w -> exists out, call op w None true = Ok (out, row j ns, i0) /\ forall i, i < T -> row i out = row j (row i outs)).
Proof.
  intros Gv Gop Hc Hm Hi K P H. assert (GM := genuine_map op n Gop).
  destruct (streamed_start _ v None T outs sf _ Gv I GM (proj1 Hc) H)
    as (Hpos & Gs0 & Hstart & o0 & s1 & i1 & os & tas & tasf & Hf & E0 & Go0 & _). subst i1.
  assert (Gr : genuine (row 0 v)) by (apply (genuine_row T); [auto|apply Hc|lia]).
  assert (Hr := proj2 Hc).
  assert (G00 : genuine (row 0 (row 0 v))) by now apply (genuine_row m).
  destruct (Hi 0) as (_ & o & t & H0); [lia|]. assert (F0 := H0). rewrite call_false_g in F0 by (auto; exact I).
  destruct (Gop _ None _ _ _ G00 I F0) as (_ & _ & Gi).
  assert (Hf' := Hf). rewrite (map_fresh op n (row 0 v) o t i0 m) in Hf' by auto.
  assert (K0 : keeps_structure op (sk (vmap (tile0 n) i0)) z (elements T m v)) by now rewrite sk_vmap.
  apply (map_once op m n z Gop Hm) in Hf' as (Ts & -> & _); auto.
  2:{ now apply genuine_tile. }
  2:{ eapply keeps_sub; [exact K0|]. intros y Hy. unfold elements. apply in_flat_map. exists (row 0 v). split; [|exact Hy].
      apply in_map_iff. exists 0. split; [reflexivity|apply in_seq; lia]. }
  2:{ intros o' t' i' Q. apply (P 0 o' t' i'); [lia|]. rewrite call_false_g; auto. exact I. }
  assert (Ne : leaves i0 <> [] -> m = n).
  { intros NE. unfold m_tall in Ts. rewrite leaves_vmap, Forall_map in Ts. destruct (leaves i0) as [|t0 l]; [easy|].
    inversion Ts as [|? ? (s2 & E) _]. unfold tile0 in E. cbn [sh] in E. congruence. }
  split; [exact Ne|].
  apply (init_streamed (Map op n)) in H; auto; [|now apply ic_map].
  destruct (map_columns op n T m v (vmap (tile0 n) i0) outs sf _ z Gv (genuine_tile n i0 Gi) Gop Hc Hm K0 P H) as (_ & ns & -> & R).
  exists (vmap (tile0 n) i0), ns. split; [reflexivity|]. split; [reflexivity|]. intros j w Hj.
  assert (Ej : row j (vmap (tile0 n) i0) = i0).
  { apply row_tile; auto. destruct (leaves i0) eqn:E; [auto|left]. rewrite <- Ne by discriminate. exact Hj. }
  split; [exact Ej|]. intros Hw.
  destruct (R j w Hj Hw) as (out & C & Rr). exists out. split; [|exact Rr]. rewrite Ej in C.
  destruct Hw as (Gw & Sw & Rw). destruct (Hi j Hj) as (Ij & oj & tj & Hj0).
  assert (Ew : row 0 w = row j (row 0 v)) by (apply Rw; lia).
  apply (streamed_init op w T out _ i0 oj tj); auto; rewrite Ew; auto.
Qed.

(** ** A number of columns other than that of the state *)
Lemma sizes_differ (x s : val) m k : genuine x -> genuine s -> is_series m x -> is_series k s -> k <> m ->
  input_size (Tup [x; s]) = Err ESizes.
Proof.
  intros Gx Gs [NEx Hx] [NEs Hs] D. unfold input_size.
  assert (P : pyok (Tup [x; s])) by (apply pyok_tup; repeat constructor; auto).
  rewrite flatten_ok, mapM_map by assumption. cbn [leaves flat_map as_t bind].
  assert (E : forall c (l : list tensor), Forall (fun t => exists s, sh t = c :: s) l -> mapM (fun t => size0 t) l = Ok (repeat c (length l))).
  { intros c l H. apply mapM_ok_iff. induction H as [|t l (r & E) _ IH]; cbn [length repeat]; constructor; auto. unfold size0. now rewrite E. }
  rewrite app_nil_r. assert (Em : mapM (fun t => size0 t) (leaves x ++ leaves s) = Ok (repeat m (length (leaves x)) ++ repeat k (length (leaves s)))).
  { apply mapM_ok_iff. apply Forall2_app; apply mapM_ok_iff; auto. }
  match goal with |- bind ?a _ = _ => replace a with (Ok (repeat m (length (leaves x)) ++ repeat k (length (leaves s)))) end.
  cbn [bind]. destruct (leaves x) as [|t l]; [easy|]. destruct (leaves s) as [|t' l']; [easy|].
  cbn [length repeat app]. replace (forallb _ _) with false; [reflexivity|]. symmetry.
  apply not_true_iff_false. intros F. rewrite forallb_forall in F. apply D. symmetry. apply Nat.eqb_eq, F.
  right. apply in_or_app. right. now left.
Qed.
Lemma map_sizes op n x s m k o t i : genuine x -> genuine s -> is_series m x -> m > 0 -> is_series k s -> k <> m ->
  forward_step op (row 0 x) None = Ok (o, t, i) -> forward_step (Map op n) x (Some (Tup [s])) = Err ESizes.
Proof.
  intros Gx Gs Hx Hm Hs D H. cbn [forward_step Map]. unfold map_step. change 0%Z with (Z.of_nat 0).
  rewrite (slice_at_ok m) by auto. cbn [bind]. rewrite call_false_g by (try exact I; now apply (genuine_row m)). rewrite H.
  cbn [bind item nth_error]. unfold tf_map_fn. now rewrite (sizes_differ x s m k).
Qed.
Lemma first_error op v st n e : genuine v -> genuine_opt st -> is_series n v -> n > 0 ->
  forward_step op (row 0 v) st = Err e -> call op v st true = Err e.
Proof.
  intros Gv Gst Hn Hp H. rewrite call_true by eauto. unfold call_streamed.
  rewrite (proj2 (input_size_ok n v (genuine_pyok _ Gv)) Hn). cbn [bind]. change 0%Z with (Z.of_nat 0).
  rewrite (slice_at_ok n) by auto. cbn [bind]. now rewrite H.
Qed.
Theorem map_wrong_size op n T m v o t i0 :
  genuine v -> genuine_op op -> has_columns T m v -> T > 0 -> m > 0 ->
  call op (row 0 (row 0 v)) None false = Ok (o, t, i0) -> leaves i0 <> [] -> m <> n ->
  call (Map op n) v None true = Err ESizes /\ call (Map op n) (row 0 v) None false = Err ESizes.
Proof.
  intros Gv Gop Hc HT Hm H NE D.
  assert (Gr : genuine (row 0 v)) by (apply (genuine_row T); [auto|apply Hc|lia]).
  assert (Hr := proj2 Hc). assert (G00 : genuine (row 0 (row 0 v))) by now apply (genuine_row m).
  rewrite call_false_g in H by (auto; exact I). destruct (Gop _ None _ _ _ G00 I H) as (_ & _ & Gi).
  assert (E : forward_step (Map op n) (row 0 v) None = Err ESizes).
  { rewrite (map_fresh op n (row 0 v) o t i0 m) by auto. apply (map_sizes op n (row 0 v) _ m n o t i0); auto.
    - now apply genuine_tile.
    - apply series_tall. split; [rewrite leaves_vmap; now destruct (leaves i0)|apply tall_tile]. }
  split; [|now rewrite call_false_g by (auto; exact I)].
  apply (first_error (Map op n) v None T); auto; [exact I|apply Hc].
Qed.
Theorem map_wrong_state op n T m v s k o t i0 :
  genuine v -> genuine s -> genuine_op op -> has_columns T m v -> T > 0 -> m > 0 ->
  call op (row 0 (row 0 v)) None false = Ok (o, t, i0) -> is_series k s -> k <> m ->
  call (Map op n) v (Some (Tup [s])) true = Err ESizes /\ call (Map op n) (row 0 v) (Some (Tup [s])) false = Err ESizes.
Proof.
  intros Gv Gs Gop Hc HT Hm H Hs D.
  assert (Gr : genuine (row 0 v)) by (apply (genuine_row T); [auto|apply Hc|lia]).
  assert (Gt : genuine (Tup [s])) by (apply genuine_tup; auto).
  assert (Hr := proj2 Hc). assert (G00 : genuine (row 0 (row 0 v))) by now apply (genuine_row m).
  rewrite call_false_g in H by (auto; exact I).
  assert (E := map_sizes op n (row 0 v) s m k o t i0 Gr Gs Hr Hm Hs D H).
  split; [|now rewrite call_false_g by auto]. apply (first_error (Map op n) v (Some (Tup [s])) T); auto. apply Hc.
Qed.

(** ** When it succeeds *)
Section Total.
Variables (op : operator) (m n : nat) (z : pyval (list nat * dtype)).
Hypothesis Gop : genuine_op op.
Hypothesis Hm : m > 0.
Lemma map_ok' x s : genuine x -> genuine s -> is_series m x -> m_tall m s -> kept_rows op x s m (sk z) ->
  (exists o t i, forward_step op (row 0 x) None = Ok (o, t, i) /\ sig o = z) ->
  (forall j, j < m -> exists o s' i, forward_step op (row j x) (Some (row j s)) = Ok (o, s', i) /\ sig o = z /\ sig s' = sig (row j s)) ->
  exists o ns i, forward_step (Map op n) x (Some (Tup [s])) = Ok (o, Tup [ns], i) /\ genuine o /\ genuine ns /\
    sig o = vmap (fun p => (m :: fst p, snd p)) z /\ sig ns = sig s /\
    forall j, j < m -> exists i', forward_step op (row j x) (Some (row j s)) = Ok (row j o, row j ns, i').
Proof.
  intros Gx Gs Hx Ts K (ov & t & iv & H0 & E0) H.
  assert (Sk : forall o : val, sig o = z -> sk o = sk z) by (intros o <-; symmetry; apply sk_vmap).
  assert (P : forall o' t i', forward_step op (row 0 x) None = Ok (o', t, i') -> sk o' = sk z).
  { intros o' t' i' Q. rewrite H0 in Q. injection Q as <- <- <-. auto. }
  assert (Gr : genuine (row 0 x)) by now apply (genuine_row m).
  destruct (Gop _ None _ _ _ Gr I H0) as (Gov & _ & _).
  destruct (mcells_exists op x s m 0) as (os & ss & Hc). { intros j Hj. destruct (H j Hj) as (o & s' & i & Q & _). eauto. }
  destruct (mcells_nth op x s m 0 os ss Hc) as (L1 & L2 & H2). cbn [Nat.add] in H2.
  assert (So : Forall (fun o => sig o = sig ov) os).
  { apply (nth_P _ _ (Tup [])). intros j Hj. assert (Hj' : j < m) by (rewrite <- L1; exact Hj).
    destruct (H2 j Hj') as (i' & H3). destruct (H j Hj') as (o & s' & i & Q & E1 & _). rewrite Q in H3. injection H3 as Eq _ _.
    exact (eq_trans (f_equal sig (eq_sym Eq)) (eq_trans E1 (eq_sym E0))). }
  assert (Ss : Forall (fun u => sig u = sig (row 0 s)) ss).
  { apply (nth_P _ _ (Tup [])). intros j Hj. assert (Hj' : j < m) by (rewrite <- L2; exact Hj).
    destruct (H2 j Hj') as (i' & H3). destruct (H j Hj') as (o & s' & i & Q & _ & E1). rewrite Q in H3. injection H3 as _ Eq _.
    refine (eq_trans (f_equal sig (eq_sym Eq)) (eq_trans E1 _)). now rewrite !sig_row. }
  destruct (arr_exists m ov os) as (o & A); auto.
  destruct (arr_exists m (row 0 s) ss) as (ns & B); auto; [apply pyok_row; auto|].
  assert (B' : arr m s ss ns).
  { destruct B as (tas & tasf & B1 & B2 & B3). exists tas, tasf. split; [|auto]. rewrite ta_new_ok in * by (auto; apply pyok_row; auto).
    rewrite <- B1. f_equal. unfold row. rewrite vmap_vmap. apply vmap_ext. intros [sh0 [l|l|l]] _; reflexivity. }
  assert (Hf : forward_step (Map op n) x (Some (Tup [s])) = Ok (o, Tup [ns], Tup [s])).
  { apply (map_fwd op x s m (sk z)); auto. split; [exact Ts|]. exists ov, t, iv, os, ss, ns. auto 10. }
  exists o, ns, (Tup [s]). split; [exact Hf|].
  apply (map_once' op m n (sk z) Gop Hm) in Hf as (_ & _ & ns' & E & Go & Gns & To & Tns & Eo & Ens & R); auto.
  injection E as <-. split; [exact Go|]. split; [exact Gns|].
  destruct (R 0 Hm) as (i' & R0). destruct (H 0 Hm) as (o1 & s1 & i1 & Q & E1 & E2). rewrite Q in R0. injection R0 as -> -> _.
  split; [rewrite (sig_tall m o To); now rewrite E1|]. split; [|exact R].
  rewrite (sig_tall m ns Tns), (sig_tall m s Ts). now rewrite E2.
Qed.
Lemma map_ok x s : genuine x -> genuine s -> is_series m x -> m_tall m s -> keeps_structure op (sk s) (sk z) (rows m x) ->
  (exists o t i, forward_step op (row 0 x) None = Ok (o, t, i) /\ sig o = z) ->
  (forall j, j < m -> exists o s' i, forward_step op (row j x) (Some (row j s)) = Ok (o, s', i) /\ sig o = z /\ sig s' = sig (row j s)) ->
  exists o ns i, forward_step (Map op n) x (Some (Tup [s])) = Ok (o, Tup [ns], i) /\ genuine o /\ genuine ns /\
    sig o = vmap (fun p => (m :: fst p, snd p)) z /\ sig ns = sig s /\
    forall j, j < m -> exists i', forward_step op (row j x) (Some (row j s)) = Ok (row j o, row j ns, i').
Proof. intros Gx Gs Hx Ts K. apply map_ok'; auto. now apply keeps_kept. Qed.
Lemma map_all xs : Forall genuine xs -> Forall (is_series m) xs ->
  (forall x, In x xs -> exists o t i, forward_step op (row 0 x) None = Ok (o, t, i) /\ sig o = z) ->
  forall s, genuine s -> m_tall m s -> keeps_structure op (sk s) (sk z) (flat_map (rows m) xs) ->
  (forall j, j < m -> exists os sf, stepsC op (row j s) (map (row j) xs) = Ok (os, sf) /\ Forall (fun o => sig o = z) os) ->
  exists os sf, stepsC (Map op n) (Tup [s]) xs = Ok (os, sf) /\ length os = length xs /\
    Forall (fun o => sig o = vmap (fun p => (m :: fst p, snd p)) z) os.
Proof.
  induction xs as [|x xs IH]; intros Gx Hx P s Gs Ts K H; [exists [], (Tup [s]); auto|].
  inversion Gx; subst. inversion Hx; subst.
  assert (Kx : keeps_structure op (sk s) (sk z) (rows m x)).
  { eapply keeps_sub; [exact K|]. cbn [flat_map]. intros y Hy. apply in_or_app. auto. }
  destruct (map_ok x s) as (o & ns & i & Hf & Go & Gns & Eo & Ens & R); auto; [apply P; now left| |].
  { intros j Hj. destruct (H j Hj) as (os & sf & Q & F). cbn [map] in Q. rewrite stepsC_G in Q.
    apply stepsG_cons in Q as (o & s' & i & os' & Q & C & _ & ->). exists o, s', i. split; [exact Q|].
    split; [exact (Forall_inv F)|]. destruct (kept op x s m (sk z) Gop H2 Gs H4 (keeps_kept _ _ _ _ _ H2 Gs H4 Kx) j o s' i Ts Hj Q) as (_ & _ & Es & _).
    apply state_check_inv in C; auto; [apply pyok_row; auto|now rewrite sk_row]. }
  destruct (IH H3 H5 (fun y Hy => P y (or_intror Hy)) ns) as (os & sf & HC & L & F); auto.
  { apply (tall_sig m s); auto. }
  { rewrite (sig_sk _ _ Ens). eapply keeps_sub; [exact K|]. cbn [flat_map]. intros y Hy. apply in_or_app. auto. }
  { intros j Hj. destruct (H j Hj) as (os & sf & Q & F). cbn [map] in Q. rewrite stepsC_G in Q.
    apply stepsG_cons in Q as (o' & s' & i' & os' & Q & C & Q' & ->). destruct (R j Hj) as (i2 & R').
    rewrite R' in Q. injection Q as <- <- <-. exists os', sf. rewrite stepsC_G. apply Forall_inv_tail in F. auto. }
  exists (o :: os), sf. split; [|split; [cbn; now f_equal|constructor; auto]].
  rewrite stepsC_G. apply stepsG_cons. exists o, (Tup [ns]), i, os. split; [exact Hf|]. split; [|rewrite <- stepsC_G; auto].
  apply check_tup1; auto. apply state_check_sig; auto.
Qed.
End Total.
Theorem map_total op n T m v s z :
  genuine v -> genuine s -> genuine_op op -> has_columns T m v -> T > 0 -> m > 0 -> m_tall m s ->
  keeps_structure op (sk s) (sk z) (elements T m v) ->
  (forall i, i < T -> exists o t i', call op (row 0 (row i v)) None false = Ok (o, t, i') /\ sig o = z) ->
  (forall j, j < m -> exists w out sf, is_column T j v w /\ call op w (Some (row j s)) true = Ok (out, sf, row j s) /\
     forall i, i < T -> sig (row i out) = z) ->
  exists outs sf, call (Map op n) v (Some (Tup [s])) true = Ok (outs, sf, Tup [s]).
Proof.
  intros Gv Gs Gop Hc HT Hm Ts K P C.
  assert (Gx := genuine_rows T v Gv (proj1 Hc)). assert (Hx := rows_series T m v Hc).
  assert (Gt : genuine (Tup [s])) by (apply genuine_tup; auto).
  assert (P' : forall x, In x (rows T v) -> exists o t i, forward_step op (row 0 x) None = Ok (o, t, i) /\ sig o = z).
  { intros x Hin. apply in_map_iff in Hin as (i & <- & Hi). apply in_seq in Hi.
    destruct (P i) as (o & t & i' & Q & E); [lia|]. exists o, t, i'. split; [|exact E]. rewrite call_false_g in Q; auto; [|exact I].
    apply (genuine_row m); auto; [apply (genuine_row T); [auto|apply Hc|lia]|now apply (row_series T)]. }
  assert (C' : forall j, j < m -> exists os sf, stepsC op (row j s) (map (row j) (rows T v)) = Ok (os, sf) /\ Forall (fun o => sig o = z) os).
  { intros j Hj. destruct (C j Hj) as (w & out & sf & Hw & Q & Z). assert (Rw := column_rows T j v w Hw). destruct Hw as (Gw & Sw & _).
    assert (Gj : genuine (row j s)) by now apply (genuine_row_tall m).
    destruct (streamed_start op w (Some (row j s)) T out sf _ Gw Gj Gop Sw Q)
      as (Hpos & _ & _ & o0 & s1 & i0 & os & tas & tasf & Hf & _ & Go0 & HC & _ & Gos & L & _ & A1 & A2 & A3).
    exists os, sf. rewrite <- Rw. split; [exact HC|].
    assert (KC : forall ys t os0 tf, incl ys (elements T m v) -> Forall genuine ys -> genuine t -> sk t = sk s -> stepsC op t ys = Ok (os0, tf) -> Forall (fun o => sk o = sk z) os0).
    { induction ys as [|y ys IH]; intros t os0 tf Iy Gy Gt0 Et Hy; [injection Hy as <- _; constructor|].
      rewrite stepsC_G in Hy. apply stepsG_cons in Hy as (o & t' & i & os' & Q1 & _ & Q2 & ->). inversion Gy; subst.
      destruct (Gop y (Some t) _ _ _ H1 Gt0 Q1) as (_ & Gt' & _).
      destruct (K y t o t' i (Iy y (or_introl eq_refl)) Gt0 Et) as [E1 E2]; [rewrite call_false_g; auto|].
      constructor; [exact E2|]. apply (IH t' os' tf (fun a Ha => Iy a (or_intror Ha)) (Forall_inv_tail Gy) Gt' E1). now rewrite stepsC_G. }
    assert (In' : incl (rows T w) (elements T m v)).
    { rewrite Rw. intros y Hy. apply in_map_iff in Hy as (x & <- & Hin). unfold elements. apply in_flat_map. exists x. split; [exact Hin|].
      apply in_map_iff. exists j. split; [reflexivity|apply in_seq; lia]. }
    assert (Ks := KC _ _ _ _ In' (genuine_rows T w Gw Sw) Gj (sk_row j s) HC).
    destruct T as [|T']; [lia|]. assert (Ez : sk o0 = sk z).
    { unfold rows in HC. cbn [seq map] in HC. rewrite stepsC_G in HC. apply stepsG_cons in HC as (o & t' & i & os' & Q1 & _ & _ & ->).
      rewrite Hf in Q1. injection Q1 as <- _ _. now inversion Ks. }
    destruct (arr_facts (S T') o0 os out) as (_ & _ & _ & Ro); auto.
    { eapply Forall_impl; [|exact Ks]. intros o E. congruence. }
    { exists tas, tasf. auto. }
    rewrite <- Ro. unfold rows. apply Forall_map, Forall_forall. intros i Hi. apply in_seq in Hi. apply Z. lia. }
  destruct (map_all op m n z Gop Hm (rows T v) Gx Hx P' s Gs Ts K C') as (os & sf & HC & L & F). rewrite rows_length in L.
  assert (Hfw : exists o1 s2 i1, forward_step (Map op n) (row 0 v) (Some (Tup [s])) = Ok (o1, s2, i1) /\ In o1 os /\ genuine o1).
  { destruct T as [|T']; [lia|]. unfold rows in HC. cbn [seq map] in HC. rewrite stepsC_G in HC.
    apply stepsG_cons in HC as (o1 & s2 & i1 & os' & Q1 & _ & _ & ->). exists o1, s2, i1. split; [exact Q1|]. split; [now left|].
    apply (genuine_map op n Gop) in Q1 as (G1 & _); auto. apply (genuine_row (S T')); [auto|apply Hc|lia]. }
  destruct Hfw as (o1 & s2 & i1 & Hf & Hin & Go1).
  destruct (complete_core (Map op n) v (Some (Tup [s])) T (Tup [s]) o1 s2 i1 os sf) as (tas & tasf & outs & Q & _); auto.
  - apply Hc.
  - rewrite Forall_forall in F. apply Forall_forall. intros o Ho. rewrite (F o Ho), (F o1 Hin). reflexivity.
  - eauto.
Qed.
End MapFacts.
