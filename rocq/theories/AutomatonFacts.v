(** * AutomatonFacts: the automaton fires the first enabled transition. *)
From Coq Require Import String List ZArith Bool Lia.
From Verif Require Import Num Py PyFacts Tensor Streamable Spec StreamFacts TensorFacts StreamProofs WfFacts EvalFacts
  Meta Common Library GenuineBase Genuine GenuineLib SpecHelpers HelperFacts.
Import ListNotations.

Section AutomatonFacts.
Context {N : FOps}.
Hint Resolve genuine_pyok genuine_opt_pyok : core.
Lemma bshape_length a : forall b s, bshape a b = Some s -> length s = length a.
Proof.
  induction a as [|x a IH]; intros [|y b] s H; try discriminate; cbn [bshape] in H.
  - now injection H as <-.
  - destruct (bshape a b) as [r|] eqn:E; [|discriminate]. apply IH in E.
    destruct (x =? y)%nat; [injection H as <-; cbn; congruence|].
    destruct (x =? 1)%nat; [injection H as <-; cbn; congruence|].
    destruct (y =? 1)%nat; [injection H as <-; cbn; congruence|discriminate].
Qed.
(** a scalar truth value comes from scalar truth values *)
Lemma and_pred e g c b : wf g -> tlogical_and (bsc e) g = Ok c -> as_pred c = Ok b ->
  exists b', g = bsc b' /\ b = e && b'.
Proof.
  destruct g as [s [l|l|l]]; try discriminate. intros W H K. unfold tlogical_and, tbool2, bsc in H. cbn [dat sh] in H.
  unfold bop in H. destruct s as [|n s].
  - cbn [shape_eqb bind] in H. injection H as <-. unfold as_pred in K. cbn [sh dat map2] in K.
    unfold wf in W. cbn in W. destruct l as [|b' [|? ?]]; try discriminate. cbn in K. injection K as <-. now exists b'.
  - cbn [shape_eqb] in H.
    match goal with H : context [bshape ?a ?b] |- _ => destruct (bshape a b) as [r|] eqn:E; [|discriminate] end.
    apply bshape_length in E. cbn [bind] in H. injection H as <-. unfold as_pred in K. cbn [sh dat] in K.
    destruct r; [|discriminate]. unfold pad_shape in E. rewrite app_length, repeat_length in E. cbn [length] in E. lia.
Qed.
Lemma cond_pair p a b f r : tf_cond p (Ok (Tup [a; b])) f = Ok r ->
  exists c, as_pred p = Ok c /\
    if c then r = Tup [a; b] else exists v, f = Ok v /\ r = unpack_singleton (unpack_singleton v).
Proof.
  intros H. unfold tf_cond in H. apply bind_ok in H as (c & Hc & H). exists c. split; [exact Hc|].
  destruct f as [f|e].
  - destruct (negb (nonempty_result (Tup [a; b]) && nonempty_result f)); [discriminate|].
    apply bind_ok in H as (t1 & _ & H). apply bind_ok in H as (t2 & _ & H).
    destruct (pv_eqb _ t1 t2); [|discriminate]. injection H as <-. destruct c; [reflexivity|eauto].
  - destruct e; try discriminate. destruct c; [|discriminate]. now injection H as <-.
Qed.
Definition case_of (ins : list val) (q : Z) (t : transition) : res (tensor * res val) :=
  let* from := pyint_like (isc q) (tr_from t) in
  let* e := tequal (isc q) from in
  let* g := tr_guard t ins in
  let* cond := tlogical_and e g in
  let* output := tr_action t ins in
  Ok (cond, Ok (Tup [output; Leaf (isc (tr_to t))])).
Lemma case_nested ins q d (ts : list transition) : forall cases r,
  (forall t g, In t ts -> tr_guard t ins = Ok g -> wf g) ->
  mapM (case_of ins q) ts = Ok cases ->
  tf_case_nested cases (Ok (Tup [d; Leaf (isc q)])) = Ok r ->
  exists o q', r = Tup [o; Leaf (isc q')] /\
    ((exists t, fires ins q ts t /\ tr_action t ins = Ok o /\ q' = tr_to t) \/ (stuck ins q ts /\ o = d /\ q' = q)).
Proof.
  induction ts as [|t ts IH]; intros cases r W M H.
  - injection M as <-. injection H as <-. exists d, q. split; [reflexivity|]. right. repeat split. constructor.
  - cbn [mapM] in M. apply bind_ok in M as (c & Hc & M). apply bind_ok in M as (cs & Hcs & M). injection M as <-.
    unfold case_of in Hc. cbn [pyint_like isc dat bind] in Hc. unfold tequal in Hc. rewrite tcmp_ii in Hc. cbn [bind] in Hc.
    apply bind_ok in Hc as (g & Hg & Hc). apply bind_ok in Hc as (cond & Hcond & Hc). apply bind_ok in Hc as (o & Ho & Hc).
    injection Hc as <-. cbn [tf_case_nested] in H.
    apply cond_pair in H as (b & Hb & H).
    destruct (and_pred _ _ _ _ (W t g (or_introl eq_refl) Hg) Hcond Hb) as (b' & -> & ->).
    destruct ((q =? tr_from t)%Z && b') eqn:E.
    + apply andb_prop in E as [E ->]. apply Z.eqb_eq in E. exists o, (tr_to t). split; [exact H|].
      left. exists t. split; [now constructor|auto].
    + destruct H as (v & Hv & ->).
      destruct (IH cs v (fun t g Ht => W t g (or_intror Ht)) Hcs Hv) as (o' & q' & -> & D).
      exists o', q'. split; [reflexivity|].
      assert (K : tr_from t <> q \/ tr_guard t ins = Ok (bsc false)).
      { apply andb_false_iff in E as [E|E]; [left|right; now subst b']. apply Z.eqb_neq in E. congruence. }
      destruct D as [(t' & F & D)|(S1 & D)]; [left|right].
      * exists t'. split; [now constructor|exact D].
      * split; [now constructor|exact D].
Qed.
Lemma automaton_step_sound ts q0 dflt x st q o s' s0 :
  (forall ins t g, inputs_are x ins -> In t ts -> tr_guard t ins = Ok g -> wf g) ->
  pyok x ->
  (st = None /\ q = q0 \/ st = Some (Leaf (isc q))) ->
  forward_step (Automaton ts q0 dflt) x st = Ok (o, s', s0) ->
  exists ins q', inputs_are x ins /\ moves ts dflt ins q o q' /\ s' = Leaf (isc q') /\ s0 = Leaf (isc q).
Proof.
  intros W P Hst H. cbn [forward_step Automaton] in H. unfold automaton_step in H.
  apply bind_ok in H as (ps & Hps & H). assert (ps = isc q) as -> by (destruct Hst as [[-> ->]| ->]; now injection Hps).
  apply bind_ok in H as (ins & Hi & H).
  assert (I : inputs_are x ins).
  { destruct x; try discriminate; injection Hi as <-; [now left|now right|destruct P]. }
  apply bind_ok in H as (cases & Hc & H). apply bind_ok in H as (d & Hd & H).
  apply bind_ok in H as (r & Hr & H). unfold tf_case in Hr. apply bind_ok in Hr as (bs & _ & Hr). cbn [andb] in Hr.
  destruct (case_nested ins q d ts cases r (fun t g => W ins t g I) Hc Hr) as (o' & q' & -> & D).
  cbn [item bind nth_error] in H. injection H as <- <- <-. exists ins, q'. split; [exact I|]. split; [|auto].
  destruct D as [D|(D1 & -> & D2)]; [left; exact D|right; auto].
Qed.
Theorem automaton_moves ts q0 dflt x st q o s' s0 :
  Forall (fun t => user_guard (tr_guard t) /\ user_fn (tr_action t)) ts ->
  genuine x -> (st = None /\ q = q0 \/ st = Some (Leaf (isc q))) ->
  call (Automaton ts q0 dflt) x st false = Ok (o, s', s0) ->
  exists ins q', inputs_are x ins /\ moves ts dflt ins q o q' /\ s' = Leaf (isc q') /\ s0 = Leaf (isc q).
Proof.
  intros U G Hst H. assert (Gst : genuine_opt st).
  { destruct Hst as [[-> _]| ->]; [exact I|]. split; [exact I|]. constructor; [reflexivity|constructor]. }
  rewrite call_false_g in H by auto. apply (automaton_step_sound ts q0 dflt x st); auto.
  intros ins t g Hi Ht Hg. rewrite Forall_forall in U. apply (proj1 (U t Ht) ins); auto.
  apply (genuine_iter x); auto. destruct Hi as [-> | ->]; reflexivity.
Qed.
(** the move is determined *)
Lemma fires_fun ins q ts t : fires ins q ts t -> forall t', fires ins q ts t' -> t' = t.
Proof.
  induction 1 as [t ts E1 E2|t ts t' D H IH]; intros u Hu.
  - inversion Hu as [|? ? ? D Hu']; subst; [reflexivity|]. destruct D as [D|D]; [easy|]. unfold bsc in *. congruence.
  - inversion Hu as [? ? E1 E2|? ? ? D' Hu']; subst; [|auto]. destruct D as [D|D]; [easy|]. unfold bsc in *. congruence.
Qed.
Lemma fires_stuck ins q ts t : fires ins q ts t -> stuck ins q ts -> False.
Proof.
  induction 1 as [t ts E1 E2|t ts t' D H IH]; intros K; inversion K as [|? ? D' K']; subst; [|auto].
  destruct D' as [D'|D']; [easy|]. unfold bsc in *. congruence.
Qed.
Lemma moves_fun ts dflt ins q o q' o2 q2 : moves ts dflt ins q o q' -> moves ts dflt ins q o2 q2 -> o2 = o /\ q2 = q'.
Proof.
  intros [(t & F & A & ->)|(K & D & ->)] [(t2 & F2 & A2 & ->)|(K2 & D2 & ->)].
  - rewrite (fires_fun _ _ _ _ F _ F2) in *. split; congruence.
  - destruct (fires_stuck _ _ _ _ F K2).
  - destruct (fires_stuck _ _ _ _ F2 K).
  - split; congruence.
Qed.
Lemma fires_in ins q ts t : fires ins q ts t -> In t ts.
Proof. induction 1; [now left|now right]. Qed.
Lemma fires_meaning ins q ts t : fires ins q ts t <->
  exists before after, ts = before ++ t :: after /\ tr_from t = q /\ tr_guard t ins = Ok (bsc true) /\
    Forall (fun u => tr_from u <> q \/ tr_guard u ins = Ok (bsc false)) before.
Proof.
  split.
  - induction 1 as [t ts E1 E2|t ts t' D H (b & a & -> & K)].
    + exists [], ts. repeat split; auto.
    + exists (t :: b), a. split; [reflexivity|]. destruct K as (K1 & K2 & K3). repeat split; auto.
  - intros (b & a & -> & E1 & E2 & D). induction D; cbn [app]; [now constructor|now constructor].
Qed.
Lemma walk_reaches ts dflt q xs os q' : walk ts dflt q xs os q' -> q' = q \/ In q' (map tr_to ts).
Proof.
  induction 1 as [q|q x xs ins o os q1 q2 _ M _ IH]; [now left|].
  destruct M as [(t & F & _ & ->)|(_ & _ & ->)].
  - destruct IH as [-> |IH]; right; [apply in_map; now apply fires_in in F|exact IH].
  - exact IH.
Qed.
(** ** Streaming *)
Lemma steps_walk ts q0 dflt : 
  Forall (fun t => user_guard (tr_guard t) /\ user_fn (tr_action t)) ts ->
  forall xs q os sf, Forall genuine xs -> steps (Automaton ts q0 dflt) (Leaf (isc q)) xs = Ok (os, sf) ->
  exists q', walk ts dflt q xs os q' /\ sf = Leaf (isc q').
Proof.
  intros U. induction xs as [|x xs IH]; intros q os sf G H; cbn [steps] in H.
  - injection H as <- <-. exists q. split; [constructor|reflexivity].
  - inversion G; subst. apply bind_ok in H as ([[o s'] s0] & Hc & H). apply bind_ok in H as ([os' sf'] & Hs & H).
    injection H as <- <-.
    destruct (automaton_moves ts q0 dflt x _ q o s' s0 U ltac:(assumption) (or_intror eq_refl) Hc) as (ins & q1 & I & M & -> & _).
    destruct (IH q1 os' sf' ltac:(assumption) Hs) as (q2 & Wk & ->). exists q2. split; [|reflexivity].
    econstructor; eauto.
Qed.
Theorem automaton_walks ts q0 dflt v st q n outs sf s0 :
  Forall (fun t => user_guard (tr_guard t) /\ user_fn (tr_action t)) ts -> user_fn dflt ->
  genuine v -> is_series n v -> (st = None /\ q = q0 \/ st = Some (Leaf (isc q))) ->
  uniform sk (Automaton ts q0 dflt) st v n ->
  call (Automaton ts q0 dflt) v st true = Ok (outs, sf, s0) ->
  exists os q', walk ts dflt q (rows n v) os q' /\ sf = Leaf (isc q') /\ s0 = Leaf (isc q) /\
    (forall i, i < n -> row i outs = nth i os (Tup [])) /\ (q' = q \/ In q' (map tr_to ts)).
Proof.
  intros U Ud G Hn Hst Un H. assert (Gst : genuine_opt st).
  { destruct Hst as [[-> _]| ->]; [exact I|]. split; [exact I|]. constructor; [reflexivity|constructor]. }
  destruct (streaming_sound _ v st outs sf s0 G Gst (genuine_automaton ts q0 dflt U Ud) H)
    as (m & os & Hp & Hm & Hs & HS & L & HR).
  assert (m = n) as -> by (eapply series_unique; eauto).
  destruct (HR Un) as [_ R].
  assert (Es : s0 = Leaf (isc q)).
  { destruct Hst as [[-> ->]| ->].
    - destruct Hs as (o & s' & Hc).
      destruct (automaton_moves ts q0 dflt (row 0 v) None q0 o s' s0 U) as (_ & _ & _ & _ & _ & E); auto.
      apply (genuine_row n); auto.
    - exact Hs. }
  subst s0. destruct (steps_walk ts q0 dflt U (rows n v) q os sf) as (q' & Wk & ->); auto.
  { apply genuine_rows; auto. }
  exists os, q'. split; [exact Wk|]. split; [reflexivity|]. split; [reflexivity|]. split; [exact R|]. eapply walk_reaches; eauto.
Qed.
(** The outputs have one structure when the actions and the default all do. *)
Theorem automaton_uniform ts q0 dflt v st q n z :
  Forall (fun t => user_guard (tr_guard t) /\ user_fn (tr_action t)) ts ->
  genuine v -> is_series n v -> n > 0 -> (st = None /\ q = q0 \/ st = Some (Leaf (isc q))) ->
  (forall ins o, dflt ins = Ok o -> sk o = z) ->
  Forall (fun t => forall ins o, tr_action t ins = Ok o -> sk o = z) ts ->
  uniform sk (Automaton ts q0 dflt) st v n.
Proof.
  intros U G Hn Hp Hst Zd Za. assert (Gr : genuine (row 0 v)) by (apply (genuine_row n); auto).
  assert (Z1 : forall ins q1 o q2, moves ts dflt ins q1 o q2 -> sk o = z).
  { intros ins q1 o q2 [(t & F & A & _)|(_ & D & _)]; [|eauto].
    rewrite Forall_forall in Za. apply (Za t (fires_in _ _ _ _ F) ins). exact A. }
  exists z. split.
  - intros o s' i Hc. destruct (automaton_moves ts q0 dflt _ st q o s' i U Gr Hst Hc) as (ins & q' & _ & M & _). eauto.
  - intros s0 os sf Hs H. assert (s0 = Leaf (isc q)) as ->.
    { destruct Hst as [[-> ->]| ->]; [|exact Hs]. destruct Hs as (o & s' & Hc).
      destruct (automaton_moves ts q0 dflt _ None q0 o s' s0 U Gr (or_introl (conj eq_refl eq_refl)) Hc) as (_ & _ & _ & _ & _ & E). exact E. }
    destruct (steps_walk ts q0 dflt U (rows n v) q os sf) as (q' & Wk & _); auto; [apply genuine_rows; auto|].
    clear -Wk Z1. induction Wk; constructor; eauto.
Qed.
(** ** When every guard and action can be computed, with outputs of one type, there is a move *)
Lemma case_nested_ok ins q d z (ts : list transition) :
  pyok d -> vmap dtype_of d = z ->
  Forall (fun t => (exists b, tr_guard t ins = Ok (bsc b)) /\ exists a, tr_action t ins = Ok a /\ vmap dtype_of a = z) ts ->
  exists cases bs o q', mapM (case_of ins q) ts = Ok cases /\ mapM (fun pv => as_pred (fst pv)) cases = Ok bs /\
    tf_case_nested cases (Ok (Tup [d; Leaf (isc q)])) = Ok (Tup [o; Leaf (isc q')]) /\ pyok o /\ vmap dtype_of o = z.
Proof.
  intros Pd Ed. induction 1 as [|t ts [(b & Hb) (a & Ha & Ea)] _ (cs & bs & o & q' & M & B & C & Po & Eo)].
  - exists [], [], d, q. repeat split; auto.
  - exists ((bsc ((q =? tr_from t)%Z && b), Ok (Tup [a; Leaf (isc (tr_to t))])) :: cs), (((q =? tr_from t)%Z && b) :: bs).
    assert (Pa : pyok a). { apply (pyok_vmap dtype_of). rewrite Ea, <- Ed. now apply pyok_vmap. }
    exists (if (q =? tr_from t)%Z && b then a else o), (if (q =? tr_from t)%Z && b then tr_to t else q').
    split.
    { cbn [mapM]. unfold case_of at 1. cbn [pyint_like isc dat bind]. unfold tequal. rewrite tcmp_ii. cbn [bind]. rewrite Hb. cbn [bind].
      unfold tlogical_and. rewrite tbool2_bb. cbn [bind]. rewrite Ha. cbn [bind]. rewrite M. reflexivity. }
    split.
    { cbn [mapM fst as_pred bsc sh dat bind]. now rewrite B. }
    split.
    { cbn [tf_case_nested]. rewrite C. etransitivity; [apply tf_cond_pick|now destruct ((q =? tr_from t)%Z && b)].
      - apply solid_pair. repeat constructor; auto.
      - apply solid_pair. repeat constructor; auto.
      - unfold same_types. cbn [vmap map]. rewrite Ea, Eo. cbn [isc dtype_of dat].
        change (pv_eqb dtype_eqb (Tup [z; Leaf I32]) (Tup [z; Leaf I32]) = true).
        assert (K := same_types_refl (Tup [a; Leaf (isc 0)])). unfold same_types in K. cbn [vmap map] in K. rewrite Ea in K.
        apply K. apply pyok_tup. repeat constructor; auto. }
    destruct ((q =? tr_from t)%Z && b); auto.
Qed.
Theorem automaton_total ts q0 dflt x ins z st q :
  genuine x -> inputs_are x ins -> decided ts dflt ins z -> (forall d, dflt ins = Ok d -> pyok d) ->
  (st = None /\ q = q0 \/ st = Some (Leaf (isc q))) ->
  exists o q', call (Automaton ts q0 dflt) x st false = Ok (o, Leaf (isc q'), Leaf (isc q)) /\ vmap dtype_of o = z.
Proof.
  intros G I [(d & Hd & Ed) F] P Hst. assert (Gst : genuine_opt st).
  { destruct Hst as [[-> _]| ->]; [exact Logic.I|]. split; [exact Logic.I|]. constructor; [reflexivity|constructor]. }
  rewrite call_false_g by auto. cbn [forward_step Automaton]. unfold automaton_step.
  match goal with |- context [bind ?e _] => assert (E : e = Ok (isc q)) by (destruct Hst as [[-> ->]| ->]; reflexivity); rewrite E; clear E end.
  cbn [bind]. assert (Hi : iter x = Ok ins) by (destruct I as [-> | ->]; reflexivity). rewrite Hi. cbn [bind].
  destruct (case_nested_ok ins q d z ts (P d Hd) Ed F) as (cs & bs & o & q' & M & B & C & Po & Eo).
  match goal with |- context [mapM ?f ts] => assert (M' : mapM f ts = Ok cs) by exact M; rewrite M'; clear M' end.
  cbn [bind]. rewrite Hd. cbn [bind]. unfold tf_case. rewrite B. cbn [bind andb].
  match goal with |- context [tf_case_nested cs ?f] => assert (C' : tf_case_nested cs f = Ok (Tup [o; Leaf (isc q')])) by exact C; rewrite C'; clear C' end.
  exists o, q'. auto.
Qed.
(** Streaming succeeds when this is so at each position. *)
Lemma Forall_first {A} (P : A -> Prop) k l : Forall P l -> Forall P (firstn k l).
Proof. intros H. rewrite <- (firstn_skipn k l) in H. now apply Forall_app in H as [H _]. Qed.
Lemma alike_decided ts dflt ins z : decided_alike ts dflt ins z -> decided ts dflt ins (vmap snd z).
Proof.
  assert (K : forall v : val, sig v = z -> vmap dtype_of v = vmap snd z) by (intros v <-; unfold sig; now rewrite vmap_vmap).
  intros [(d & Hd & Ed) F]. split; [exists d; auto|]. eapply Forall_impl; [|exact F]. intros t [G (a & Ha & Ea)]. split; [exact G|]. exists a. auto.
Qed.
Lemma moves_alike ts dflt ins z q o q' : decided_alike ts dflt ins z -> moves ts dflt ins q o q' -> sig o = z.
Proof.
  intros [(d & Hd & Ed) F] [(t & Ft & A & _)|(_ & D & _)]; [|congruence].
  rewrite Forall_forall in F. destruct (F t (fires_in _ _ _ _ Ft)) as [_ (a & Ha & Ea)]. congruence.
Qed.
Lemma inputs_unique x ins ins' : inputs_are x ins -> inputs_are x ins' -> ins' = ins.
Proof. intros [-> | ->] [E|E]; congruence. Qed.
Lemma automaton_steps ts q0 dflt z :
  Forall (fun t => user_guard (tr_guard t) /\ user_fn (tr_action t)) ts -> user_fn dflt ->
  forall xs q, Forall genuine xs -> Forall (fun x => exists ins, inputs_are x ins /\ decided_alike ts dflt ins z) xs ->
  exists os q', steps (Automaton ts q0 dflt) (Leaf (isc q)) xs = Ok (os, Leaf (isc q')) /\ Forall (fun o => sig o = z) os.
Proof.
  intros U Ud. induction xs as [|x xs IH]; intros q G D; [exists [], q; split; [reflexivity|constructor]|].
  inversion G as [|? ? Gx Gxs]; subst. inversion D as [|? ? (ins & I & Dx) Dxs]; subst.
  assert (Gi : Forall genuine ins) by (destruct I as [-> | ->]; [now apply genuine_tup|now apply genuine_lst]).
  destruct (automaton_total ts q0 dflt x ins (vmap snd z) (Some (Leaf (isc q))) q Gx I (alike_decided _ _ _ _ Dx)) as (o & q1 & C & _).
  { intros d Hd. apply genuine_pyok. exact (Ud ins d Gi Hd). } { now right. }
  destruct (automaton_moves ts q0 dflt x (Some (Leaf (isc q))) q o _ _ U Gx (or_intror eq_refl) C) as (ins' & q2 & I' & M & E & _).
  rewrite (inputs_unique _ _ _ I I') in M. destruct (IH q1 Gxs Dxs) as (os & q' & S & F).
  exists (o :: os), q'. cbn [steps]. match goal with |- context [bind ?e _] => assert (C' : e = Ok (o, Leaf (isc q1), Leaf (isc q))) by exact C; rewrite C' end. cbn [bind].
  match goal with |- context [bind ?e _] => assert (S' : e = Ok (os, Leaf (isc q'))) by exact S; rewrite S' end. split; [reflexivity|]. constructor; [|exact F]. eapply moves_alike; eauto.
Qed.
Theorem automaton_streams_total ts q0 dflt v st q n z :
  Forall (fun t => user_guard (tr_guard t) /\ user_fn (tr_action t)) ts -> user_fn dflt ->
  genuine v -> is_series n v -> n > 0 -> (st = None /\ q = q0 \/ st = Some (Leaf (isc q))) ->
  (forall i, i < n -> exists ins, inputs_are (row i v) ins /\ decided_alike ts dflt ins z) ->
  exists outs q', call (Automaton ts q0 dflt) v st true = Ok (outs, Leaf (isc q'), Leaf (isc q)) /\ genuine outs.
Proof.
  intros U Ud G Hn Hp Hst D. assert (Gst : genuine_opt st).
  { destruct Hst as [[-> _]| ->]; [exact I|]. split; [exact I|]. constructor; [reflexivity|constructor]. }
  assert (Gr : genuine (row 0 v)) by (apply (genuine_row n); auto).
  assert (Grs : Forall genuine (rows n v)) by (apply genuine_rows; auto).
  assert (Dr : Forall (fun x => exists ins, inputs_are x ins /\ decided_alike ts dflt ins z) (rows n v)).
  { apply Forall_forall. intros x Ix. unfold rows in Ix. apply in_map_iff in Ix as (i & <- & Ii). apply in_seq in Ii. apply D. lia. }
  assert (First : exists o q1, call (Automaton ts q0 dflt) (row 0 v) st false = Ok (o, Leaf (isc q1), Leaf (isc q)) /\ sig o = z).
  { destruct (D 0 Hp) as (ins & I & Dx).
    assert (Gi : Forall genuine ins) by (destruct I as [E|E]; rewrite E in Gr; [now apply genuine_tup|now apply genuine_lst]).
    destruct (automaton_total ts q0 dflt (row 0 v) ins (vmap snd z) st q Gr I (alike_decided _ _ _ _ Dx)) as (o & q1 & C & _); auto.
    { intros d Hd. apply genuine_pyok. exact (Ud ins d Gi Hd). }
    destruct (automaton_moves ts q0 dflt _ st q o _ _ U Gr Hst C) as (ins' & q2 & I' & M & E & _). rewrite (inputs_unique _ _ _ I I') in M.
    exists o, q1. split; [exact C|]. eapply moves_alike; eauto. }
  assert (Start : starts_from (Automaton ts q0 dflt) st (row 0 v) (Leaf (isc q))).
  { destruct Hst as [[-> ->]| ->]; [|reflexivity]. destruct First as (o & q1 & C & _). cbn. eauto. }
  destruct (automaton_steps ts q0 dflt z U Ud (rows n v) q Grs Dr) as (os & q' & S & F).
  destruct (streaming_complete (Automaton ts q0 dflt) v st n (Leaf (isc q)) os (Leaf (isc q')) G Gst (genuine_automaton ts q0 dflt U Ud) Hn Hp Start S) as (outs & C & Go & _).
  - exists z. split.
    + intros o s' i C. destruct First as (o1 & q1 & C1 & E). pose proof (eq_trans (eq_sym C1) C) as Q. congruence.
    + intros s0 os1 sf St1 S1. assert (s0 = Leaf (isc q)) as ->.
      { destruct Hst as [[-> ->]| ->]; [|exact St1]. destruct St1 as (o1 & s' & C1). destruct First as (o2 & q1 & C2 & _). pose proof (eq_trans (eq_sym C2) C1) as Q. congruence. }
      pose proof (eq_trans (eq_sym S1) S) as Q. injection Q as -> _. exact F.
  - intros k os1 s Hk S1. destruct (automaton_steps ts q0 dflt z U Ud (firstn k (rows n v)) q) as (os2 & q2 & S2 & _).
    + now apply Forall_first. + now apply Forall_first. + pose proof (eq_trans (eq_sym S1) S2) as Q. injection Q as _ ->. reflexivity.
  - exists outs, q'. now split.
Qed.
End AutomatonFacts.
