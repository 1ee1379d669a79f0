(** * FillFacts: FFill (C13, C14). *)
From Coq Require Import String List ZArith Bool Lia.
From Verif Require Import Num Py PyFacts Tensor Streamable Spec SpecMeta SpecHelpers StreamFacts TensorFacts StreamProofs
  WfFacts EvalFacts Meta Common Finance Library GenuineBase Genuine GenuineLib RunFacts JoinFacts ComposeFacts HelperFacts StatelessFacts.
Import ListNotations.

Section FillFacts.
Context {N : FOps}.
Hint Resolve genuine_pyok genuine_opt_pyok : core.

(** ** any_value decides [missing], and fails on anything but floats *)
Lemma any_zero x p : genuine x -> any_value x f0 = Ok p <-> all_floats x /\ p = bsc (missing x).
Proof.
  intros G. assert (K : all_floats x -> any_value x f0 = Ok (bsc (missing x))).
  { intros A. unfold any_value, missing. destruct G as [P W].
    rewrite (any_leaf_ok _ (fun t => existsb (fun y => feq y f0) (elements t))); auto.
    - f_equal. f_equal. clear -A. unfold all_floats in A. induction A as [|t l Ht _ IH]; [reflexivity|]. cbn [existsb]. rewrite IH. f_equal. now destruct t as [s [l'|l'|l']].
    - intros t Ht. unfold all_floats in A. rewrite Forall_forall in A, W. apply has_value; auto. }
  split.
  - intros H. assert (A : all_floats x).
    { unfold any_value, any_leaf in H. apply bind_ok in H as (m & Hm & _).
      unfold all_floats. apply Forall_forall. intros t Ht.
      assert (E := map_fn_vmap (fun l => match l with [Leaf x] => let* y := tensor_has_value f0 x in Ok (Leaf y) | _ => Err EType end) x (genuine_pyok _ G)
        (fun a => a) [fun a => a]). cbn [map] in E. rewrite !vmap_id in E.
      assert (Hm' : vmapM (fun t => let* y := tensor_has_value f0 t in Ok (Leaf y)) x = Ok m) by exact (eq_trans (eq_sym E) Hm).
      destruct (vmapM_inv _ _ _ Hm' t Ht) as (y & Hy).
      unfold tensor_has_value in Hy. apply bind_ok in Hy as (u & Hu & Hy). apply bind_ok in Hy as (e & He & _).
      destruct t as [s [l|l|l]]; [reflexivity|..]; cbn in Hu; injection Hu as <-; discriminate He. }
    split; [exact A|]. rewrite K in H by exact A. now injection H.
  - intros [A ->]. auto.
Qed.

(** ** How many one-element tuples or lists are around a value *)
Fixpoint chain {A} (v : pyval A) : nat :=
  match v with Tup [x] | Lst [x] => S (chain x) | _ => 0 end.
Lemma chain_vmap {A B} (f : A -> B) v : chain (vmap f v) = chain v.
Proof.
  induction v as [a|l IH|l IH|l IH|l IH] using pyval_ind'; try reflexivity; cbn [vmap].
  - destruct l as [|x [|y l]]; try reflexivity. cbn. inversion IH; subst. now f_equal.
  - destruct l as [|x [|y l]]; try reflexivity. cbn. inversion IH; subst. now f_equal.
Qed.
Lemma chain_eqb {A B} (e : A -> B -> bool) v : forall w, pv_eqb e v w = true -> chain v = chain w.
Proof.
  induction v as [a|l IH|l IH|l IH|l IH] using pyval_ind'; intros w H; destruct w as [b|m|m|m|m]; try discriminate; try reflexivity.
  - destruct l as [|x [|x' l]], m as [|y [|y' m]]; try discriminate; try reflexivity.
    + cbn in *. inversion IH; subst. rewrite andb_true_r in H. f_equal. auto.
    + cbn in H. rewrite andb_false_r in H. discriminate.
    + cbn in H. rewrite andb_false_r in H. discriminate.
  - destruct l as [|x [|x' l]], m as [|y [|y' m]]; try discriminate; try reflexivity.
    + cbn in *. inversion IH; subst. rewrite andb_true_r in H. f_equal. auto.
    + cbn in H. rewrite andb_false_r in H. discriminate.
    + cbn in H. rewrite andb_false_r in H. discriminate.
Qed.
Lemma same_chain (a b : val) : same_types a b = true -> chain a = chain b.
Proof. intros H. unfold same_types in H. apply chain_eqb in H. now rewrite !chain_vmap in H. Qed.
Lemma chain_unpack (v : val) : chain (unpack_singleton v) = chain v - 1.
Proof. destruct v as [a|[|x [|y l]]|[|x [|y l]]|l|l]; cbn; lia. Qed.
Lemma chain_0 (v : val) : chain v = 0 -> unpack_singleton v = v.
Proof. destruct v as [a|[|x [|y l]]|[|x [|y l]]|l|l]; cbn; congruence. Qed.
Lemma chain_boxed {A} (v : pyval A) : boxed v <-> chain v <> 0.
Proof. destruct v as [a|[|x [|y l]]|[|x [|y l]]|l|l]; cbn; split; auto; lia. Qed.
Lemma sk_chain {A B} (v : pyval A) (w : pyval B) : sk v = sk w -> chain v = chain w.
Proof. intros H. rewrite <- (chain_vmap (fun _ => tt) v), <- (chain_vmap (fun _ => tt) w). f_equal. exact H. Qed.
Lemma chain_same_unit (s : val) : same_types s (Tup []) = true -> s = Tup [].
Proof. destruct s as [a|[|x l]|l|l|l]; try discriminate; reflexivity. Qed.
Lemma chain_unit_same (s : val) : same_types (Tup []) s = true -> s = Tup [].
Proof. destruct s as [a|[|x l]|l|l|l]; try discriminate; reflexivity. Qed.

(** ** tf.cond of two values *)
Lemma cond_inv b (t f r : val) : pyok t -> pyok f -> tf_cond (bsc b) (Ok t) (Ok f) = Ok r ->
  same_types (unpack_singleton t) (unpack_singleton f) = true /\
  r = unpack_singleton (unpack_singleton (if b then t else f)).
Proof.
  intros Pt Pf H. unfold tf_cond in H. cbn [as_pred bsc sh dat bind] in H.
  destruct (nonempty_result t && nonempty_result f); [|discriminate]. cbn [negb] in H.
  assert (P : forall v : val, pyok v -> pyok (unpack_singleton v)).
  { intros [a|[|x [|y l]]|[|x [|y l]]|l|l] Q; auto.
    - apply pyok_tup in Q. now inversion Q.
    - apply pyok_lst in Q. now inversion Q. }
  rewrite !to_type_ok in H by auto. cbn [bind] in H. unfold same_types.
  destruct (pv_eqb _ _ _); [|discriminate]. split; [reflexivity|]. injection H as <-. now destruct b.
Qed.
Lemma cond_chain b (t f r : val) : pyok t -> pyok f -> tf_cond (bsc b) (Ok t) (Ok f) = Ok r ->
  chain t - 1 = chain f - 1 /\ chain r = chain t - 1 - 1.
Proof.
  intros Pt Pf H. apply cond_inv in H as [E ->]; auto. apply same_chain in E. rewrite !chain_unpack in *.
  split; [exact E|]. destruct b; lia.
Qed.

Lemma genuine_pair (a b : val) : genuine (Tup [a; b]) <-> genuine a /\ genuine b.
Proof.
  rewrite genuine_tup. split; [intros H; inversion H as [|? ? ? H']; inversion H'; auto|intros [? ?]; auto].
Qed.
(** ** One call *)
Lemma ffill_fwd op x po ps o s' i : genuine x -> genuine (Tup [po; ps]) ->
  forward_step (FFill op) x (Some (Tup [po; ps])) = Ok (o, s', i) <->
  all_floats x /\ exists o1 s1 i1 s2, forward_step op x (Some ps) = Ok (o1, s1, i1) /\
    tf_cond (bsc (missing x)) (Ok po) (Ok o1) = Ok o /\
    (if is_unit_tuple i1 then s2 = Tup [] else tf_cond (bsc (missing x)) (Ok ps) (Ok s1) = Ok s2) /\
    s' = Tup [o; s2] /\ i = Tup [po; i1].
Proof.
  intros G Gs. assert (Gps : genuine ps) by now apply genuine_pair in Gs.
  cbn [forward_step FFill]. unfold ffill_step. split.
  - intros H. apply bind_ok in H as (p & Hp & H). apply any_zero in Hp as [A ->]; auto.
    cbn [item nth_error bind] in H. apply bind_ok in H as ([[o1 s1] i1] & H1 & H).
    rewrite call_false_g in H1 by auto. cbn [bind] in H. apply bind_ok in H as (o' & Ho & H).
    apply bind_ok in H as (s2 & Hs & H). injection H as <- <- <-.
    split; [exact A|]. exists o1, s1, i1, s2. split; [exact H1|]. split; [exact Ho|]. split; [|auto].
    destruct (is_unit_tuple i1); [now injection Hs|exact Hs].
  - intros (A & o1 & s1 & i1 & s2 & H1 & Ho & Hs & -> & ->).
    rewrite (proj2 (any_zero x _ G) (conj A eq_refl)). cbn [item nth_error bind].
    rewrite call_false_g by auto. unfold val in *. rewrite H1. cbn [bind]. rewrite Ho. cbn [bind].
    destruct (is_unit_tuple i1); [now subst s2|]. rewrite Hs. reflexivity.
Qed.
Lemma ffill_fwd_none op x o s' i : genuine x -> genuine_op op ->
  forward_step (FFill op) x None = Ok (o, s', i) <->
  all_floats x /\ exists o1 s1 i1 s2, forward_step op x None = Ok (o1, s1, i1) /\
    tf_cond (bsc (missing x)) (Ok (vmap zeros_like o1)) (Ok o1) = Ok o /\
    (if is_unit_tuple i1 then s2 = Tup [] else tf_cond (bsc (missing x)) (Ok i1) (Ok s1) = Ok s2) /\
    s' = Tup [o; s2] /\ i = Tup [vmap zeros_like o1; i1].
Proof.
  intros G Gop. cbn [forward_step FFill]. unfold ffill_step.
  assert (Z : forall o1 : val, pyok o1 -> map_fn (fun l : list (pyval tensor) => match l with
                      | [Leaf p] => Ok (Leaf (zeros_like p))
                      | _ => Err EType end) o1 [o1] = Ok (vmap zeros_like o1)).
  { intros o1 P. now apply map_fn1_pure. }
  split.
  - intros H. apply bind_ok in H as (p & Hp & H). apply any_zero in Hp as [A ->]; auto.
    cbn [bind] in H. apply bind_ok in H as ([[o1 s1] i1] & H1 & H).
    rewrite call_false_g in H1 by (auto; exact I). destruct (Gop _ None _ _ _ G I H1) as (Go & _).
    apply bind_ok in H as (po & Hpo & H). rewrite Z in Hpo by auto. injection Hpo as <-. apply bind_ok in H as (o' & Ho & H).
    apply bind_ok in H as (s2 & Hs & H). injection H as <- <- <-.
    split; [exact A|]. exists o1, s1, i1, s2. split; [exact H1|]. split; [exact Ho|]. split; [|auto].
    destruct (is_unit_tuple i1); [now injection Hs|exact Hs].
  - intros (A & o1 & s1 & i1 & s2 & H1 & Ho & Hs & -> & ->).
    rewrite (proj2 (any_zero x _ G) (conj A eq_refl)). cbn [bind].
    destruct (Gop _ None _ _ _ G I H1) as (Go & _).
    rewrite call_false_g by (auto; exact I). unfold val in *. rewrite H1. cbn [bind]. rewrite Z by auto. cbn [bind]. rewrite Ho. cbn [bind].
    destruct (is_unit_tuple i1); [now subst s2|]. rewrite Hs. reflexivity.
Qed.

(** ** A run *)
Section Run.
Variables (op : operator) (zs z : pyval unit) (xs : list val).
Hypothesis Gop : genuine_op op.
Hypothesis Gxs : Forall genuine xs.
Hypothesis K : keeps_structure op zs z xs.
Hypothesis Hz : ~ boxed z.

Lemma kept x s o s' i : In x xs -> genuine s -> sk s = zs ->
  forward_step op x (Some s) = Ok (o, s', i) -> sk s' = zs /\ sk o = z.
Proof.
  intros Hx Gs T H. apply (K x s o s' i); auto. rewrite call_false_g; auto. rewrite Forall_forall in Gxs. auto.
Qed.
Lemma z_chain (v : val) : sk v = z -> chain v = 0.
Proof.
  intros E. destruct (Nat.eq_dec (chain v) 0) as [C|C]; [exact C|]. exfalso. apply Hz. rewrite <- E.
  apply chain_boxed. unfold sk. now rewrite chain_vmap.
Qed.
Lemma ffill_once x po s o s' i : In x xs -> genuine po -> genuine s -> sk s = zs -> sk po = z ->
  forward_step (FFill op) x (Some (Tup [po; s])) = Ok (o, s', i) -> state_check (Tup [po; s]) s' = Ok tt ->
  exists o1 s1 i1, forward_step op x (Some s) = Ok (o1, s1, i1) /\ genuine o1 /\ genuine s1 /\
    sk s1 = zs /\ sk o1 = z /\ o = (if missing x then po else o1) /\
    s' = Tup [o; if missing x then s else s1] /\ state_check s (if missing x then s else s1) = Ok tt.
Proof.
  intros Hx Gpo Gs T Ez H C. assert (Gx : genuine x) by (rewrite Forall_forall in Gxs; auto).
  apply ffill_fwd in H as (A & o1 & s1 & i1 & s2 & H1 & Ho & Hs & -> & ->); auto; [|now apply genuine_pair].
  destruct (Gop x (Some s) _ _ _ Gx Gs H1) as (Go1 & Gs1 & _).
  destruct (kept x s o1 s1 i1 Hx Gs T H1) as [T1 E1].
  exists o1, s1, i1. do 5 (split; [assumption|]).
  assert (Eo : o = if missing x then po else o1).
  { apply cond_inv in Ho as [_ ->]; auto. rewrite !chain_0; [reflexivity|..].
    - apply z_chain. destruct (missing x); assumption.
    - rewrite chain_unpack. rewrite z_chain; [reflexivity|]. destruct (missing x); assumption. }
  split; [exact Eo|].
  assert (Go : genuine o) by (rewrite Eo; destruct (missing x); assumption).
  assert (Gs2 : genuine s2).
  { destruct (is_unit_tuple i1); [subst s2; now apply genuine_tup|]. apply cond_inv in Hs as [_ ->]; auto.
    assert (U : forall v : val, genuine v -> genuine (unpack_singleton v)).
    { intros [a|[|y [|y' l]]|[|y [|y' l]]|l|l] Q; auto; cbn [unpack_singleton].
      - apply genuine_tup in Q. now inversion Q.
      - apply genuine_lst in Q. now inversion Q. }
    do 2 apply U. destruct (missing x); assumption. }
  apply state_check_cons in C as [C1 C2]; [|apply genuine_pair; auto..].
  apply state_check_cons in C2 as [C2 _]; [|apply genuine_tup; auto..].
  assert (C3 := C2). apply state_check_types in C3; auto.
  assert (E2 : s2 = if missing x then s else s1).
  { destruct (is_unit_tuple i1).
    - subst s2. apply chain_same_unit in C3. subst s. rewrite <- T in T1.
      assert (s1 = Tup []) as -> by (destruct s1 as [|[|]| | |]; try discriminate; reflexivity). now destruct (missing x).
    - assert (Hc := Hs). apply cond_chain in Hc as [_ Hc]; auto. assert (T2 : chain s1 = chain s) by (apply sk_chain; congruence). apply same_chain in C3.
      apply cond_inv in Hs as [_ ->]; auto.
      assert (Z : chain (if missing x then s else s1) = 0) by (destruct (missing x); lia).
      exact (eq_trans (f_equal unpack_singleton (chain_0 _ Z)) (chain_0 _ Z)). }
  subst s2. split; [reflexivity|exact C2].
Qed.
Definition picked (xs os : list val) : list val :=
  map snd (filter (fun p => negb (missing (fst p))) (combine xs os)).
Definition held (po : val) (xs os : list val) : Prop :=
  forall i, i < length xs -> missing (nth i xs (Tup [])) = true ->
    nth i os (Tup []) = match i with 0 => po | S k => nth k os (Tup []) end.
Lemma last_cons {A} (o d : A) os : last os o = last (o :: os) d.
Proof.
  destruct os as [|a os]; [reflexivity|]. change (last (o :: a :: os) d) with (last (a :: os) d).
  revert a. induction os as [|b os IH]; intros a; [reflexivity|].
  change (last (b :: os) o = last (b :: os) d). apply IH.
Qed.
Lemma held_cons po x xs' o os : (missing x = true -> o = po) -> held o xs' os -> held po (x :: xs') (o :: os).
Proof.
  intros H1 H2 [|i] Hi M; cbn [nth] in *; [auto|]. cbn [length] in Hi. rewrite (H2 i) by (auto; lia). now destruct i.
Qed.
Lemma ffill_run ys : incl ys xs -> forall po s os sf,
  genuine po -> genuine s -> sk s = zs -> sk po = z ->
  stepsG state_check (FFill op) (Tup [po; s]) ys = Ok (os, sf) ->
  exists sp, stepsG state_check op s (present ys) = Ok (picked ys os, sp) /\ sf = Tup [last os po; sp] /\
    held po ys os /\ length os = length ys /\ Forall (fun o => sk o = z) os.
Proof.
  induction ys as [|x ys IH]; intros I po s os sf Gpo Gs T Ez H.
  - injection H as <- <-. exists s. repeat split; auto. intros i Hi. inversion Hi.
  - apply stepsG_cons in H as (o & s' & i & os' & H1 & C & H2 & ->).
    assert (Hx : In x xs) by (apply I; now left).
    destruct (ffill_once x po s o s' i Hx Gpo Gs T Ez H1 C) as (o1 & s1 & i1 & F1 & Go1 & Gs1 & T1 & E1 & Eo & -> & Cs).
    destruct (missing x) eqn:M; subst o.
    + destruct (IH (fun a Ha => I a (or_intror Ha)) po s os' sf Gpo Gs T Ez H2) as (sp & R & -> & Hd & L & Z).
      exists sp. unfold present, picked. cbn [combine filter fst]. rewrite M. cbn [negb]. split; [exact R|].
      split. { f_equal. f_equal. apply last_cons. }
      split; [now apply held_cons|]. split; [cbn; now f_equal|now constructor].
    + destruct (IH (fun a Ha => I a (or_intror Ha)) o1 s1 os' sf Go1 Gs1 T1 E1 H2) as (sp & R & -> & Hd & L & Z).
      exists sp. unfold present, picked. cbn [combine filter fst]. rewrite M. cbn [negb map snd]. split.
      { apply stepsG_cons. exists o1, s1, i1, (picked ys os'). auto. }
      split. { f_equal. f_equal. apply last_cons. }
      split; [apply held_cons; [congruence|assumption]|]. split; [cbn; now f_equal|now constructor].
Qed.
End Run.

(** ** Streaming *)
Lemma fill_check op x po s o s' i : genuine x -> genuine po -> genuine s -> genuine_op op ->
  forward_step (FFill op) x (Some (Tup [po; s])) = Ok (o, s', i) -> state_check (Tup [po; s]) s' = Ok tt ->
  chain po = 0 /\ chain s = 0.
Proof.
  intros Gx Gpo Gs Gop H C. assert (Gp : genuine (Tup [po; s])) by now apply genuine_pair.
  destruct (genuine_ffill op Gop x (Some (Tup [po; s])) _ _ _ Gx Gp H) as (Go & Gs' & _).
  apply ffill_fwd in H as (A & o1 & s1 & i1 & s2 & H1 & Ho & Hs & -> & ->); auto.
  destruct (Gop x (Some s) _ _ _ Gx Gs H1) as (Go1 & Gs1 & _).
  assert (Gs2 : genuine s2) by now apply genuine_pair in Gs'.
  apply state_check_cons in C as [C1 C2]; auto.
  apply state_check_cons in C2 as [C2 _]; [|apply genuine_tup; auto..].
  apply state_check_types, same_chain in C1; auto. apply state_check_types in C2; auto.
  apply cond_chain in Ho as [_ Ho]; auto. split; [lia|].
  destruct (is_unit_tuple i1); [subst s2; now rewrite (chain_same_unit _ C2)|].
  apply cond_chain in Hs as [_ Hs]; auto. apply same_chain in C2. lia.
Qed.
Lemma sk_zeros (o : val) : sk (vmap zeros_like o) = sk o.
Proof. unfold sk. rewrite vmap_vmap. now apply vmap_ext. Qed.
Lemma zeros_zero (o : val) : all_zero (vmap zeros_like o).
Proof.
  unfold all_zero. rewrite leaves_vmap, Forall_map. apply Forall_forall. intros [s d] _.
  destruct d; cbn; apply Forall_forall; intros y Hy; apply repeat_spec in Hy; auto.
Qed.
Lemma picked_rows n v outs :
  picked (rows n v) (rows n outs) = map (fun i => row i outs) (filter (fun i => negb (missing (row i v))) (seq 0 n)).
Proof.
  unfold picked, rows. induction (seq 0 n) as [|k l IH]; [reflexivity|]. cbn [map combine filter fst].
  destruct (missing (row k v)); cbn [negb map snd]; now rewrite IH.
Qed.
Lemma last_nth {A} (l : list A) d e : l <> [] -> last l d = nth (length l - 1) l e.
Proof.
  induction l as [|a l IH]; intros H; [easy|]. destruct l as [|b l]; [reflexivity|].
  change (last (b :: l) d = nth (S (length l) - 0) (a :: b :: l) e). rewrite IH by easy. cbn [length].
  now replace (S (length l) - 1) with (length l) by lia; replace (S (length l) - 0) with (S (length l)) by lia.
Qed.
Lemma ffill_core op v st n outs sf po ps :
  genuine v -> genuine_opt st -> genuine_op op -> is_series n v ->
  keeps_structure op (sk ps) (sk po) (rows n v) ->
  call (FFill op) v st true = Ok (outs, sf, Tup [po; ps]) ->
  n > 0 /\ genuine outs /\ genuine po /\ genuine ps /\ ~ boxed po /\ ~ boxed ps /\
  exists sp, stepsG state_check op ps (present (rows n v)) = Ok (picked (rows n v) (rows n outs), sp) /\
    sf = Tup [last (rows n outs) po; sp] /\ held po (rows n v) (rows n outs) /\
    (st = None -> all_zero po /\ starts_from op None (row 0 v) ps).
Proof.
  intros Gv Gst Gop Hn K H. assert (GF := genuine_ffill op Gop).
  destruct (streamed_start _ v st n outs sf _ Gv Gst GF Hn H)
    as (Hpos & Gs0 & Hstart & o0 & s1 & i0 & os & tas & tasf & Hf & E0 & Go & HC & HS & Gos & L & Gsf & Ht & Hw & Hstk).
  assert (Gr : genuine (row 0 v)) by (apply (genuine_row n); auto).
  assert (Gx := genuine_rows n v Gv Hn). apply genuine_pair in Gs0 as [Gpo Gps].
  rewrite stepsC_G in HC.
  assert (CH : chain po = 0 /\ chain ps = 0).
  { destruct n as [|n]; [lia|]. unfold rows in HC. cbn [seq map] in HC.
    apply stepsG_cons in HC as (o & s' & i & os' & H1 & C & _). eapply (fill_check op (row 0 v) po ps); eauto. }
  destruct CH as [C1 C2].
  assert (NB : ~ boxed (sk po)) by (rewrite chain_boxed; unfold sk; rewrite chain_vmap; auto).
  destruct (ffill_run op (sk ps) (sk po) (rows n v) Gop Gx K NB (rows n v) (incl_refl _) po ps os sf) as (sp & R & -> & Hd & _ & Z); auto.
  assert (E1 : sk o0 = sk po /\ (st = None -> all_zero po /\ starts_from op None (row 0 v) ps)).
  { destruct st as [s|].
    - cbn in E0. subst s. split; [|discriminate]. destruct n as [|n]; [lia|]. unfold rows in HC. cbn [seq map] in HC.
      apply stepsG_cons in HC as (o & s' & i & os' & H1 & _ & _ & ->). rewrite Hf in H1. injection H1 as <- <- <-. now inversion Z.
    - subst i0. apply ffill_fwd_none in Hf as (A & o1 & s2 & i1 & s3 & H1 & Ho & _ & _ & E); auto.
      assert (E1 : po = vmap zeros_like o1 /\ ps = i1) by (injection E; auto). destruct E1 as [-> ->].
      destruct (Gop _ None _ _ _ Gr I H1) as (Go1 & _).
      rewrite sk_zeros. split.
      + apply cond_inv in Ho as [_ ->]; auto.
        assert (Q : chain (if missing (row 0 v) then vmap zeros_like o1 else o1) = 0).
        { rewrite chain_vmap in C1. destruct (missing (row 0 v)); [now rewrite chain_vmap|exact C1]. }
        transitivity (sk (if missing (row 0 v) then vmap zeros_like o1 else o1)).
        * f_equal. exact (eq_trans (f_equal unpack_singleton (chain_0 _ Q)) (chain_0 _ Q)).
        * destruct (missing (row 0 v)); [apply sk_zeros|reflexivity].
      + intros _. split; [apply zeros_zero|]. exists o1, s2. now rewrite call_false_g. }
  destruct E1 as [E1 E2].
  destruct (arrays_rows o0 os n tas tasf outs) as [Gout Rw]; auto.
  { rewrite E1. exact Z. }
  assert (ER := rows_eq n outs os L Rw). rewrite ER.
  split; [exact Hpos|]. split; [exact Gout|]. split; [exact Gpo|]. split; [exact Gps|].
  split; [rewrite chain_boxed; lia|]. split; [rewrite chain_boxed; lia|].
  exists sp. auto.
Qed.
Lemma rows_nth n v i d : i < n -> nth i (rows n v) d = row i v.
Proof.
  intros Hi. unfold rows. rewrite (nth_indep _ d (row 0 v)) by (now rewrite map_length, seq_length).
  rewrite (map_nth (fun k => row k v)). now rewrite seq_nth.
Qed.
Lemma last_row n v d : n > 0 -> last (rows n v) d = row (n - 1) v.
Proof.
  intros Hp. rewrite (last_nth (rows n v) d d); [|now destruct n; [lia|]]. rewrite rows_length. now rewrite rows_nth by lia.
Qed.
Theorem ffill_streams op v st n outs sf po ps :
  genuine v -> genuine_opt st -> genuine_op op -> is_series n v ->
  keeps_structure op (sk ps) (sk po) (rows n v) ->
  call (FFill op) v st true = Ok (outs, sf, Tup [po; ps]) ->
  (st = None -> all_zero po /\ starts_from op None (row 0 v) ps) /\
  (forall i, i < n -> missing (row i v) = true -> row i outs = match i with 0 => po | S k => row k outs end) /\
  exists sp, sf = Tup [row (n - 1) outs; sp] /\
    steps op ps (present (rows n v)) =
      Ok (map (fun i => row i outs) (filter (fun i => negb (missing (row i v))) (seq 0 n)), sp).
Proof.
  intros Gv Gst Gop Hn K H.
  destruct (ffill_core op v st n outs sf po ps Gv Gst Gop Hn K H) as (Hp & Gout & Gpo & Gps & _ & _ & sp & R & -> & Hd & S0).
  split; [exact S0|]. split.
  - intros i Hi M. specialize (Hd i). rewrite rows_length in Hd. rewrite !rows_nth in Hd by auto.
    rewrite Hd by auto. destruct i; [reflexivity|]. now rewrite rows_nth by lia.
  - exists sp. split.
    + exact (f_equal (fun a => Tup [a; sp]) (last_row n outs po Hp)).
    + rewrite steps_G; auto.
      2:{ unfold present. apply Forall_forall. intros x Hx. apply filter_In in Hx as [Hx _].
          revert x Hx. apply Forall_forall. now apply genuine_rows. }
      rewrite <- picked_rows. eapply stepsG_weak; exact R.
Qed.
(** Streaming the operator over the present rows alone. *)
Theorem ffill_present op v st n outs sf po ps pv m st' :
  genuine v -> genuine_opt st -> genuine_op op -> is_series n v ->
  keeps_structure op (sk ps) (sk po) (rows n v) ->
  call (FFill op) v st true = Ok (outs, sf, Tup [po; ps]) ->
  genuine pv -> genuine_opt st' -> is_series m pv -> m > 0 -> rows m pv = present (rows n v) ->
  starts_from op st' (row 0 pv) ps ->
  (st' = None -> init_consistent op (row 0 pv)) ->
  exists pouts sp, call op pv st' true = Ok (pouts, sp, ps) /\ sf = Tup [row (n - 1) outs; sp] /\
    rows m pouts = map (fun i => row i outs) (filter (fun i => negb (missing (row i v))) (seq 0 n)).
Proof.
  intros Gv Gst Gop Hn K H Gpv Gst' Hm Hmp Er Hs Hsig.
  destruct (ffill_core op v st n outs sf po ps Gv Gst Gop Hn K H) as (Hp & Gout & Gpo & Gps & _ & _ & sp & R & -> & Hd & S0).
  rewrite <- Er in R. rewrite picked_rows in R.
  set (os := map (fun i => row i outs) (filter (fun i => negb (missing (row i v))) (seq 0 n))) in *.
  assert (Gr : genuine (row 0 pv)) by (apply (genuine_row m); auto).
  assert (L : length os = m) by (apply stepsG_length in R; now rewrite rows_length in R).
  assert (HF : exists o0 s1 i0, forward_step op (row 0 pv) st' = Ok (o0, s1, i0) /\
             ps = match st' with Some s => s | None => i0 end /\ In o0 os).
  { destruct m as [|m]; [lia|]. unfold rows in R. cbn [seq map] in R.
    apply stepsG_cons in R as (o & s' & i & os' & H1 & _ & _ & Eo). destruct st' as [s|].
    - simpl in Hs. subst s. exists o, s', i. rewrite Eo. cbn. auto.
    - destruct Hs as (o0 & s1 & Hc). assert (IC := Hsig eq_refl o0 s1 ps Hc). rewrite call_false_g in Hc, IC by auto.
      exists o0, s1, ps. split; [exact Hc|]. split; [reflexivity|]. rewrite Eo. left.
      assert (E : Ok (o, s', i) = Ok (o0, s1, ps)) by exact (eq_trans (eq_sym H1) IC). now injection E. }
  destruct HF as (o0 & s1 & i0 & Hf & E0 & Io).
  destruct (Gop _ _ _ _ _ Gr Gst' Hf) as (Go & _).
  assert (Sg : Forall (fun o => sig o = sig o0) os).
  { apply Forall_forall. intros o Ho. unfold os in Ho, Io. apply in_map_iff in Ho as (k & <- & _).
    apply in_map_iff in Io as (k' & <- & _). apply sig_row. }
  destruct (complete_core op pv st' m ps o0 s1 i0 os sp) as (tas & tasf & pouts & C & A1 & A2 & A3); auto.
  exists pouts, sp. split; [exact C|]. split.
  - exact (f_equal (fun a => Tup [a; sp]) (last_row n outs po Hp)).
  - destruct (arrays_rows o0 os m tas tasf pouts) as [_ Rw]; auto.
    + destruct (stepsG_genuine state_check op Gop _ _ _ _ Gps (genuine_rows m pv Gpv Hm) R) as (? & _). assumption.
    + eapply Forall_impl; [|exact Sg]. intros o. apply sig_sk.
    + now apply rows_eq.
Qed.

(** ** When it succeeds *)
Lemma solid_sig (a b : val) : pyok a -> sig b = sig a -> ~ boxed a -> holds_something a -> solid b.
Proof.
  intros P E B Hs. assert (C : chain b = 0).
  { rewrite (sk_chain b a) by now apply sig_sk. destruct (Nat.eq_dec (chain a) 0); [assumption|]. exfalso. apply B. now apply chain_boxed. }
  split; [|split; [|now apply chain_0]].
  - apply (pyok_vmap tsig). fold (sig b). rewrite E. now apply pyok_vmap.
  - destruct a as [|[|]|[|]| |], b as [|[|]|[|]| |]; try discriminate; try reflexivity; destruct Hs.
Qed.
Lemma floats_row i v : all_floats v -> all_floats (row i v).
Proof.
  unfold all_floats, row. rewrite leaves_vmap, Forall_map. intros H. eapply Forall_impl; [|exact H].
  intros [s [l|l|l]] E; try discriminate. reflexivity.
Qed.
Lemma cond_states (ps : val) (b : bool) (s s1 i1 : val) : genuine ps -> ~ boxed ps -> ps = Tup [] \/ holds_something ps -> genuine s -> genuine s1 -> sig s = sig ps -> sig s1 = sig ps ->
  (i1 = Tup [] <-> ps = Tup []) ->
  exists s2, (if is_unit_tuple i1 then s2 = Tup [] else tf_cond (bsc b) (Ok s) (Ok s1) = Ok s2) /\ genuine s2 /\ sig s2 = sig ps.
Proof.
  intros Gps Bs Ss Gs Gs1 E E1 Hi. destruct (is_unit_tuple i1) eqn:U.
  - exists (Tup []). split; [reflexivity|]. split; [now apply genuine_tup|].
    assert (ps = Tup []) as ->; [|reflexivity]. apply Hi. destruct i1 as [|[|]| | |]; try discriminate. reflexivity.
  - destruct Ss as [Ss'|Ss']; [apply Hi in Ss'; now subst|].
    exists (if b then s else s1). split.
    + apply tf_cond_pick; [apply (solid_sig ps)..|]; auto. apply same_types_sig; auto. congruence.
    + destruct b; auto.
Qed.
Section Total.
Variables (op : operator) (po ps : val) (xs : list val).
Hypothesis Gop : genuine_op op.
Hypothesis Gpo : genuine po.
Hypothesis Gps : genuine ps.
Hypothesis Gxs : Forall genuine xs.
Hypothesis Axs : Forall all_floats xs.
Hypothesis Acc : accepts op ps (sig po) xs.
Hypothesis Bo : ~ boxed po.
Hypothesis So : holds_something po.
Hypothesis Bs : ~ boxed ps.
Hypothesis Ss : ps = Tup [] \/ holds_something ps.
Lemma ffill_ok x po' s : In x xs -> genuine po' -> genuine s -> sig po' = sig po -> sig s = sig ps ->
  exists o s2 i, forward_step (FFill op) x (Some (Tup [po'; s])) = Ok (o, Tup [o; s2], i) /\
    genuine o /\ genuine s2 /\ sig o = sig po /\ sig s2 = sig ps.
Proof.
  intros Hx Gp' Gs Eo Es. assert (Gx : genuine x) by (rewrite Forall_forall in Gxs; auto).
  destruct (Acc x s Hx Gs Es) as (o1 & s1 & i1 & H1 & E1 & E2 & Hi). rewrite call_false_g in H1 by auto.
  destruct (Gop x (Some s) _ _ _ Gx Gs H1) as (Go1 & Gs1 & _).
  destruct (cond_states ps (missing x) s s1 i1 Gps Bs Ss Gs Gs1 Es E2 Hi) as (s2 & Hs & Gs2 & E3).
  exists (if missing x then po' else o1), s2, (Tup [po'; i1]). split.
  - apply ffill_fwd; auto; [now apply genuine_pair|]. split; [rewrite Forall_forall in Axs; auto|].
    exists o1, s1, i1, s2. split; [exact H1|]. split; [|auto].
    apply tf_cond_pick; [apply (solid_sig po)..|]; auto. apply same_types_sig; auto. congruence.
  - destruct (missing x); auto.
Qed.
Lemma ffill_all ys : incl ys xs -> forall po' s, genuine po' -> genuine s -> sig po' = sig po -> sig s = sig ps ->
  exists os sf, stepsC (FFill op) (Tup [po'; s]) ys = Ok (os, sf) /\ Forall (fun o => sig o = sig po) os /\ length os = length ys.
Proof.
  induction ys as [|x ys IH]; intros I po' s Gp' Gs Eo Es; [exists [], (Tup [po'; s]); repeat split; auto|].
  destruct (ffill_ok x po' s (I x (or_introl eq_refl)) Gp' Gs Eo Es) as (o & s2 & i & H & Go & Gs2 & E1 & E2).
  destruct (IH (fun a Ha => I a (or_intror Ha)) o s2 Go Gs2 E1 E2) as (os & sf & HC & Z & L).
  exists (o :: os), sf. split; [|split; [now constructor|cbn; now f_equal]].
  rewrite stepsC_G in *. apply stepsG_cons. exists o, (Tup [o; s2]), i, os. split; [exact H|]. split; [|auto].
  apply state_check_sig.
  - apply genuine_pyok. now apply genuine_pair.
  - unfold sig in *. cbn [vmap map]. congruence.
Qed.
End Total.
Theorem ffill_total op v n po ps :
  genuine v -> genuine_op op -> is_series n v -> n > 0 -> all_floats v -> genuine po -> genuine ps ->
  accepts op ps (sig po) (rows n v) -> ~ boxed po -> holds_something po -> ~ boxed ps -> ps = Tup [] \/ holds_something ps ->
  exists outs sf, call (FFill op) v (Some (Tup [po; ps])) true = Ok (outs, sf, Tup [po; ps]).
Proof.
  intros Gv Gop Hn Hp A Gpo Gps Acc Bo So Bs Ss. assert (Gx := genuine_rows n v Gv Hn).
  assert (Ax : Forall all_floats (rows n v)) by (apply Forall_map, Forall_forall; intros; now apply floats_row).
  destruct (ffill_all op po ps (rows n v) Gop Gpo Gps Gx Ax Acc Bo So Bs Ss (rows n v) (incl_refl _) po ps Gpo Gps eq_refl eq_refl)
    as (os & sf & HC & Z & L). rewrite rows_length in L.
  destruct (ffill_ok op po ps (rows n v) Gop Gpo Gps Gx Ax Acc Bo So Bs Ss (row 0 v) po ps) as (o & s2 & i & H & Go & _ & E & _); auto.
  { apply in_map_iff. exists 0. split; [reflexivity|]. apply in_seq. lia. }
  destruct (complete_core (FFill op) v (Some (Tup [po; ps])) n (Tup [po; ps]) o (Tup [o; s2]) i os sf) as (tas & tasf & outs & C & _); auto.
  - now apply genuine_pair.
  - rewrite E. exact Z.
  - eauto.
Qed.
Lemma sig_zeros (o : val) : sig (vmap zeros_like o) = sig o.
Proof. unfold sig. rewrite vmap_vmap. apply vmap_ext. intros [s [l|l|l]] _; reflexivity. Qed.
Lemma genuine_zeros (o : val) : genuine o -> genuine (vmap zeros_like o).
Proof.
  intros [P W]. split; [now apply pyok_vmap|]. rewrite leaves_vmap, Forall_map. apply Forall_forall. intros [s [l|l|l]] _; unfold wf; cbn; apply repeat_length.
Qed.
Theorem ffill_total_fresh op v n o s' ps :
  genuine v -> genuine_op op -> is_series n v -> n > 0 -> all_floats v ->
  call op (row 0 v) None false = Ok (o, s', ps) -> sig s' = sig ps ->
  accepts op ps (sig o) (rows n v) -> ~ boxed o -> holds_something o -> ~ boxed ps -> ps = Tup [] \/ holds_something ps ->
  exists outs sf po, call (FFill op) v None true = Ok (outs, sf, Tup [po; ps]) /\ sig po = sig o /\ all_zero po.
Proof.
  intros Gv Gop Hn Hp A Hc Es Acc Bo So Bs Ss. assert (Gx := genuine_rows n v Gv Hn).
  assert (Ax : Forall all_floats (rows n v)) by (apply Forall_map, Forall_forall; intros; now apply floats_row).
  assert (Gr : genuine (row 0 v)) by (apply (genuine_row n); auto).
  rewrite call_false_g in Hc by (auto; exact I). destruct (Gop _ None _ _ _ Gr I Hc) as (Go & Gs' & Gps).
  assert (Gpo := genuine_zeros o Go). assert (E := sig_zeros o).
  assert (Bo' : ~ boxed (vmap zeros_like o)) by (rewrite chain_boxed, chain_vmap; rewrite chain_boxed in Bo; exact Bo).
  assert (So' : holds_something (vmap zeros_like o)) by now destruct o as [|[|]|[|]| |].
  rewrite <- E in Acc.
  destruct (ffill_all op (vmap zeros_like o) ps (rows n v) Gop Gpo Gps Gx Ax Acc Bo' So' Bs Ss (rows n v) (incl_refl _) _ ps Gpo Gps eq_refl eq_refl)
    as (os & sf & HC & Z & L). rewrite rows_length in L.
  destruct (cond_states ps (missing (row 0 v)) ps s' ps Gps Bs Ss) as (s2 & Hs & Gs2 & _); auto; [tauto|].
  set (o0 := if missing (row 0 v) then vmap zeros_like o else o).
  assert (Hf : forward_step (FFill op) (row 0 v) None = Ok (o0, Tup [o0; s2], Tup [vmap zeros_like o; ps])).
  { apply ffill_fwd_none; auto. split; [rewrite Forall_forall in Ax; apply Ax; apply in_map_iff; exists 0; split; [reflexivity|apply in_seq; lia]|].
    exists o, s', ps, s2. split; [exact Hc|]. split; [|auto].
    apply tf_cond_pick; [apply (solid_sig (vmap zeros_like o))..|]; auto. apply same_types_sig; auto. }
  destruct (complete_core (FFill op) v None n (Tup [vmap zeros_like o; ps]) o0 (Tup [o0; s2]) (Tup [vmap zeros_like o; ps]) os sf) as (tas & tasf & outs & C & _); auto.
  - exact I.
  - unfold o0. destruct (missing (row 0 v)); auto.
  - eapply Forall_impl; [|exact Z]. intros a Ha. rewrite Ha. unfold o0. destruct (missing (row 0 v)); auto.
  - exists outs, sf, (vmap zeros_like o). split; [exact C|]. split; [exact E|apply zeros_zero].
Qed.

(** ** States in a tuple of one element *)
Theorem ffill_never op v st r : genuine v -> genuine_opt st -> genuine_op op ->
  (st = None /\ (forall o s' i, call op (row 0 v) None false = Ok (o, s', i) -> boxed i) \/
   exists po ps, st = Some (Tup [po; ps]) /\ boxed ps) ->
  call (FFill op) v st true <> Ok r.
Proof.
  intros Gv Gst Gop B H. destruct r as [[outs sf] s0]. assert (GF := genuine_ffill op Gop).
  destruct (series_of_call _ _ _ _ (genuine_pyok _ Gv) Gst H) as (n & Hn).
  destruct (streamed_start _ v st n outs sf _ Gv Gst GF Hn H)
    as (Hpos & Gs0 & Hstart & o0 & s1 & i0 & os & tas & tasf & Hf & E0 & Go & HC & _).
  assert (Gr : genuine (row 0 v)) by (apply (genuine_row n); auto).
  assert (S0 : exists po ps, s0 = Tup [po; ps] /\ boxed ps).
  { destruct B as [[-> B]|(po & ps & -> & B)]; [|eauto].
    subst i0. apply ffill_fwd_none in Hf as (_ & o1 & s2 & i1 & s3 & H1 & _ & _ & _ & E); auto.
    exists (vmap zeros_like o1), i1. split; [exact E|]. apply (B o1 s2 i1). now rewrite call_false_g. }
  destruct S0 as (po & ps & -> & Bp). apply genuine_pair in Gs0 as [Gpo Gps].
  rewrite stepsC_G in HC. destruct n as [|n]; [lia|]. unfold rows in HC. cbn [seq map] in HC.
  apply stepsG_cons in HC as (o & s' & i & os' & H1 & C & _).
  destruct (fill_check op (row 0 v) po ps o s' i) as [_ Z]; auto. apply chain_boxed in Bp. auto.
Qed.
Lemma same_unpack (a b : val) : same_types a b = true -> same_types (unpack_singleton a) (unpack_singleton b) = true.
Proof.
  unfold same_types. destruct a as [|[|? [|]]|[|? [|]]| |], b as [|[|? [|]]|[|? [|]]| |]; try discriminate; auto;
    cbn [vmap map pv_eqb unpack_singleton]; try (now rewrite ?andb_false_r); rewrite ?andb_true_r; auto.
Qed.
Lemma cond_both b (t f : val) : pyok t -> pyok f -> same_types t f = true -> holds_something t ->
  tf_cond (bsc b) (Ok t) (Ok f) = Ok (unpack_singleton (unpack_singleton (if b then t else f))).
Proof.
  intros Pt Pf E Ht. assert (P : forall v : val, pyok v -> pyok (unpack_singleton v)).
  { intros [a|[|x [|y l]]|[|x [|y l]]|l|l] Q; auto.
    - apply pyok_tup in Q. now inversion Q.
    - apply pyok_lst in Q. now inversion Q. }
  unfold tf_cond. cbn [as_pred bsc sh dat bind].
  assert (Z : nonempty_result t && nonempty_result f = true).
  { destruct t as [|[|]|[|]| |], f as [|[|]|[|]| |]; try discriminate; try reflexivity; destruct Ht. }
  rewrite Z. cbn [negb]. rewrite !to_type_ok by auto. cbn [bind].
  apply same_unpack in E. unfold same_types in E. rewrite E. now destruct b.
Qed.
Lemma same_zeros (o : val) : pyok o -> same_types (vmap zeros_like o) o = true.
Proof. intros P. apply same_types_sig; [now apply pyok_vmap|apply sig_zeros]. Qed.
(** The first step of the loop is rejected by the state check. *)
Lemma rejected_at_once op v st n s0 o0 s1 i0 o s' i :
  genuine v -> genuine_opt st -> genuine_op op -> is_series n v -> n > 0 ->
  forward_step op (row 0 v) st = Ok (o0, s1, i0) -> s0 = match st with Some s => s | None => i0 end ->
  forward_step op (row 0 v) (Some s0) = Ok (o, s', i) -> same_types s0 s' = false ->
  call op v st true = Err EStateType.
Proof.
  intros Gv Gst Gop Hn Hp H0 E0 H1 T. assert (Gr : genuine (row 0 v)) by (apply (genuine_row n); auto).
  destruct (Gop _ _ _ _ _ Gr Gst H0) as (Go0 & _ & Gi0).
  assert (Gs0 : genuine s0) by (subst s0; destruct st; auto).
  destruct (Gop _ (Some s0) _ _ _ Gr Gs0 H1) as (_ & Gs' & _).
  rewrite call_true by eauto. unfold call_streamed.
  assert (E : input_size v = Ok n) by (apply input_size_ok; eauto). rewrite E. cbn [bind].
  assert (E1 : slice_at 0 v = Ok (row 0 v)) by (apply (slice_at_ok n v 0); eauto). rewrite E1. cbn [bind].
  rewrite H0. cbn [bind]. rewrite <- E0. rewrite ta_new_ok by eauto. cbn [bind].
  destruct n as [|n]; [lia|]. cbn [tf_while fst Nat.ltb Nat.leb].
  unfold stream_body at 1. cbn [Z.of_nat]. rewrite E1. cbn [bind]. rewrite H1. cbn [bind].
  rewrite !to_type_ok by eauto. cbn [bind]. unfold check_types_equality, same_types in *. rewrite T. reflexivity.
Qed.
Theorem ffill_error op v n o s' s0 : genuine v -> genuine_op op -> is_series n v -> n > 0 -> all_floats v ->
  call op (row 0 v) None false = Ok (o, s', s0) -> init_consistent op (row 0 v) ->
  same_types s0 s' = true -> boxed s0 -> holds_something o ->
  call (FFill op) v None true = Err EStateType.
Proof.
  intros Gv Gop Hn Hp A Hc Ic Es Bs So.
  assert (Gr : genuine (row 0 v)) by (apply (genuine_row n); auto).
  assert (Ar := floats_row 0 v A). specialize (Ic _ _ _ Hc).
  assert (Hi : genuine s0).
  { rewrite call_false_g in Hc by (auto; exact I). now destruct (Gop _ None _ _ _ Gr I Hc) as (_ & _ & ?). }
  rewrite call_false_g in Hc by (auto; exact I). rewrite call_false_g in Ic by auto.
  destruct (Gop _ None _ _ _ Gr I Hc) as (Go & Gs' & _).
  assert (U : is_unit_tuple s0 = false) by (destruct s0 as [|[|]| | |]; try reflexivity; destruct Bs).
  assert (Hs : holds_something s0) by (destruct s0 as [|[|]|[|]| |]; try exact I; destruct Bs).
  set (b := missing (row 0 v)).
  assert (C1 := cond_both b (vmap zeros_like o) o).
  assert (C2 := cond_both b s0 s').
  assert (So' : holds_something (vmap zeros_like o)) by now destruct o as [|[|]|[|]| |].
  specialize (C1 (proj2 (pyok_vmap _ _) (genuine_pyok _ Go)) (genuine_pyok _ Go) (same_zeros _ (genuine_pyok _ Go)) So').
  specialize (C2 (genuine_pyok _ Hi) (genuine_pyok _ Gs') Es Hs).
  set (o1 := unpack_singleton _) in C1. set (s1 := unpack_singleton _) in C2.
  assert (F0 : forward_step (FFill op) (row 0 v) None = Ok (o1, Tup [o1; s1], Tup [vmap zeros_like o; s0])).
  { apply ffill_fwd_none; auto. split; [exact Ar|]. exists o, s', s0, s1. rewrite U. auto. }
  assert (Gz : genuine (Tup [vmap zeros_like o; s0])) by (apply genuine_pair; split; [now apply genuine_zeros|exact Hi]).
  assert (F1 : forward_step (FFill op) (row 0 v) (Some (Tup [vmap zeros_like o; s0])) = Ok (o1, Tup [o1; s1], Tup [vmap zeros_like o; s0])).
  { apply ffill_fwd; auto. split; [exact Ar|]. exists o, s', s0, s1. rewrite U. auto. }
  destruct (genuine_ffill op Gop _ None _ _ _ Gr I F0) as (Go1 & Gs1 & _).
  apply (rejected_at_once (FFill op) v None n _ _ _ _ _ _ _ Gv I (genuine_ffill op Gop) Hn Hp F0 eq_refl F1).
  destruct (same_types (Tup [vmap zeros_like o; s0]) (Tup [o1; s1])) eqn:T; [exfalso|reflexivity].
  unfold same_types in T. cbn [vmap map pv_eqb] in T. apply andb_prop in T as [_ T]. apply andb_prop in T as [T _].
  apply (same_chain s0 s1) in T. unfold s1 in T. rewrite !chain_unpack in T.
  assert (Ec : chain (if b then s0 else s') = chain s0) by (destruct b; [|symmetry; apply same_chain]; auto).
  unfold val in *. rewrite Ec in T. apply chain_boxed in Bs. lia.
Qed.
(** ** The operators of the library whose state is a tuple of one element *)
Lemma boxed_set_during v p x o s' i : genuine x -> call (SetDuring v p) x None false = Ok (o, s', i) -> boxed i.
Proof.
  intros G H. rewrite call_false_g in H by (auto; exact I). cbn [forward_step SetDuring] in H.
  unfold set_during_step in H. repeat (apply bind_ok in H as (? & ? & H)). now injection H as <- <- <-.
Qed.
Lemma boxed_map op n x o s' i : genuine x -> call (Map op n) x None false = Ok (o, s', i) -> boxed i.
Proof.
  intros G H. rewrite call_false_g in H by (auto; exact I). cbn [forward_step Map] in H. unfold map_step in H.
  apply bind_ok in H as (? & ? & H). apply bind_ok in H as ([[? ?] ?] & ? & H). apply bind_ok in H as (? & ? & H).
  apply bind_ok in H as (? & ? & H). apply bind_ok in H as ([? ?] & ? & H). now injection H as <- <- <-.
Qed.
Lemma boxed_auto_correlation p l x o s' i : genuine x ->
  call (AutoCorrelation p l) x None false = Ok (o, s', i) -> boxed i.
Proof.
  intros G H. rewrite call_false_g in H by (auto; exact I). cbn [forward_step AutoCorrelation] in H.
  unfold auto_correlation_step in H.
  apply bind_ok in H as (? & ? & H). apply bind_ok in H as (? & ? & H). apply bind_ok in H as ([[? ?] ?] & ? & H).
  now injection H as <- <- <-.
Qed.
Lemma boxed_compose op x o s' i : genuine x -> call (Compose [op]) x None false = Ok (o, s', i) -> boxed i.
Proof.
  intros G H. rewrite call_false_g in H by (auto; exact I). cbn [forward_step Compose rev app] in H.
  unfold compose_step in H. cbn [bind length repeat combine compose_loop] in H.
  apply bind_ok in H as ([[? ?] ?] & H1 & H). apply bind_ok in H1 as ([[? ?] ?] & _ & H1). cbn [bind] in H1.
  injection H1 as <- <- <-. now injection H as <- <- <-.
Qed.
Lemma boxed_join op x o s' i : genuine x -> leaves x <> [] -> call (Join [op]) x None false = Ok (o, s', i) -> boxed i.
Proof.
  intros G L H. rewrite call_false_g in H by (auto; exact I). cbn [forward_step Join] in H.
  unfold join_step in H. cbn [bind length repeat] in H. apply bind_ok in H as (l & Hl & H).
  destruct l as [|y l].
  - destruct x as [?|[|]|[|]|?|?]; try discriminate; try (now elim L). destruct (genuine_pyok _ G).
  - cbn [combine join_loop] in H.
    apply bind_ok in H as ([[? ?] ?] & H1 & H). apply bind_ok in H1 as ([[? ?] ?] & _ & H1).
    destruct l; cbn [combine join_loop bind] in H1; injection H1 as <- <- <-; now injection H as <- <- <-.
Qed.
Theorem ffill_never_named v r : genuine v ->
  (forall c p, wf c -> call (FFill (SetDuring c p)) v None true <> Ok r) /\
  (forall op n, genuine_op op -> call (FFill (Map op n)) v None true <> Ok r) /\
  (forall p l, call (FFill (AutoCorrelation p l)) v None true <> Ok r) /\
  (forall op, genuine_op op -> call (FFill (Compose [op])) v None true <> Ok r) /\
  (forall op, genuine_op op -> call (FFill (Join [op])) v None true <> Ok r).
Proof.
  intros G.
  assert (D : forall op, genuine_op op ->
    (genuine (row 0 v) -> leaves (row 0 v) <> [] -> forall o s' i, call op (row 0 v) None false = Ok (o, s', i) -> boxed i) ->
    call (FFill op) v None true <> Ok r).
  { intros op Gop B H. destruct r as [[outs sf] s0].
    destruct (series_of_call _ _ None _ (genuine_pyok _ G) I H) as (n & Hn).
    destruct (streamed_start _ v None n outs sf _ G I (genuine_ffill op Gop) Hn H) as (Hpos & _).
    apply (ffill_never op v None (outs, sf, s0) G I Gop); [|exact H]. left. split; [reflexivity|]. apply B.
    - now apply (genuine_row n).
    - unfold row. rewrite leaves_vmap. destruct Hn as [Hn _]. now destruct (leaves v). }
  repeat split; intros; apply D.
  - now apply genuine_set_during.
  - intros. eapply boxed_set_during; eauto.
  - now apply genuine_map.
  - intros. eapply boxed_map; eauto.
  - apply library_genuine, lib_basic, lib_auto.
  - intros. eapply boxed_auto_correlation; eauto.
  - apply genuine_compose. auto.
  - intros. eapply boxed_compose; eauto.
  - apply genuine_join. auto.
  - intros. eapply boxed_join; eauto.
Qed.
End FillFacts.
