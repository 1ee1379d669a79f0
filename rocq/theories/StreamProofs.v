(** * StreamProofs: the generic streaming properties (C01-C03, C05-C07). *)
From Coq Require Import String List ZArith Bool Lia.
From Verif Require Import Num Py PyFacts Tensor Streamable Spec StreamFacts TensorFacts.
Import ListNotations.

Section StreamProofs.
Context {N : FOps}.

Lemma genuine_pyok v : genuine v -> pyok v.
Proof. now intros []. Qed.
Lemma genuine_opt_pyok st : genuine_opt st -> forall s, st = Some s -> pyok s.
Proof. intros H s ->. now apply genuine_pyok. Qed.
Hint Resolve genuine_pyok genuine_opt_pyok : core.

Lemma call_false_g op x st : genuine x -> genuine_opt st -> call op x st false = forward_step op x st.
Proof. intros. apply call_false; eauto. Qed.

Lemma sig_sk v w : sig v = sig w -> sk v = sk w.
Proof. intros H. unfold sig in H. rewrite <- (sk_vmap tsig v), <- (sk_vmap tsig w). now rewrite H. Qed.

(** Values of the structure of [o0], as functions of the leaf number. *)
Definition getleaf (o : val) (j : nat) : tensor := nth j (leaves o) dummy.
Lemma numbered (o o0 : val) : sk o = sk o0 -> o = vmap (getleaf o) (number 0 o0).
Proof.
  intros H. rewrite <- (number_sk o o0 0 H). symmetry. apply (fill_number dummy).
Qed.
Lemma numbered_list (os : list val) (o0 : val) : Forall (fun o => sk o = sk o0) os ->
  os = map (fun f => vmap f (number 0 o0)) (map getleaf os).
Proof.
  induction 1 as [|o os H _ IH]; simpl; [reflexivity|]. f_equal; auto. now apply numbered.
Qed.
Lemma pyok_number (o : val) : pyok o -> pyok (number 0 o).
Proof. intros H. apply pyok_sk. rewrite sk_number. now apply pyok_sk. Qed.

Lemma number_lt {A} (v : pyval A) : forall k j,
  In j (leaves (number k v)) -> k <= j < k + length (leaves v).
Proof.
  induction v as [a|l IH|l IH|l IH|l IH] using pyval_ind'; intros k j Hj.
  - simpl in *. lia.
  - change (leaves (number k (Tup l))) with (flat_map leaves (number_l k l)) in Hj.
    simpl. revert k Hj. induction IH as [|x l Hx _ IHl]; intros k Hj; [destruct Hj|].
    simpl in *. rewrite app_length. apply in_app_or in Hj as [Hj|Hj].
    + apply Hx in Hj. lia.
    + apply IHl in Hj. lia.
  - change (leaves (number k (Lst l))) with (flat_map leaves (number_l k l)) in Hj.
    simpl. revert k Hj. induction IH as [|x l Hx _ IHl]; intros k Hj; [destruct Hj|].
    simpl in *. rewrite app_length. apply in_app_or in Hj as [Hj|Hj].
    + apply Hx in Hj. lia.
    + apply IHl in Hj. lia.
  - change (leaves (number k (Dct l))) with (flat_map (fun kv => leaves (snd kv)) (number_d k l)) in Hj.
    simpl. revert k Hj. induction IH as [|[n x] l Hx _ IHl]; intros k Hj; [destruct Hj|].
    simpl in *. rewrite app_length. apply in_app_or in Hj as [Hj|Hj].
    + apply Hx in Hj. lia.
    + apply IHl in Hj. lia.
  - change (leaves (number k (Gen l))) with (flat_map leaves (number_l k l)) in Hj.
    simpl. revert k Hj. induction IH as [|x l Hx _ IHl]; intros k Hj; [destruct Hj|].
    simpl in *. rewrite app_length. apply in_app_or in Hj as [Hj|Hj].
    + apply Hx in Hj. lia.
    + apply IHl in Hj. lia.
Qed.

Lemma leaves_length_sk {A B} (v : pyval A) (w : pyval B) : sk v = sk w -> length (leaves v) = length (leaves w).
Proof.
  intros H. assert (E : leaves (sk v) = leaves (sk w)) by now rewrite H.
  unfold sk in E. rewrite !leaves_vmap in E. apply (f_equal (@length unit)) in E.
  now rewrite !map_length in E.
Qed.
Lemma getleaf_in (o o0 : val) j : sk o = sk o0 -> In j (leaves (number 0 o0)) -> In (getleaf o j) (leaves o).
Proof.
  intros H Hj. apply number_lt in Hj. apply nth_In. rewrite (leaves_length_sk o o0 H). lia.
Qed.
Lemma getleaf_sig (o o0 : val) j : sig o = sig o0 -> tsig (getleaf o j) = tsig (getleaf o0 j).
Proof.
  intros H. unfold getleaf. rewrite <- !(map_nth tsig).
  unfold sig in H. rewrite <- !leaves_vmap. now rewrite H.
Qed.

(** ** stepping *)
Lemma stepsC_sound op : genuine_op op -> forall xs s os sf,
  genuine s -> Forall genuine xs -> stepsC op s xs = Ok (os, sf) ->
  steps op s xs = Ok (os, sf) /\ Forall genuine os /\ genuine sf /\ length os = length xs.
Proof.
  intros Hop. induction xs as [|x xs IH]; intros s os sf Hs Hxs H; cbn [stepsC] in H.
  - injection H as <- <-. auto.
  - inversion Hxs; subst. cbn [steps].
    apply bind_ok in H as ([[o s'] i0] & Hf & H).
    apply bind_ok in H as (_ & _ & H). apply bind_ok in H as ([os' sf'] & Hst & H).
    injection H as <- <-.
    rewrite call_false_g by (simpl; auto). rewrite Hf. cbn [bind].
    destruct (Hop _ (Some s) _ _ _ H2 Hs Hf) as (G1 & G2 & _).
    destruct (IH _ _ _ G2 H3 Hst) as (E & G3 & G4 & L).
    rewrite E. simpl. auto.
Qed.
Lemma steps_genuine op : genuine_op op -> forall xs s os sf,
  genuine s -> Forall genuine xs -> steps op s xs = Ok (os, sf) ->
  Forall genuine os /\ genuine sf /\ length os = length xs.
Proof.
  intros Hop. induction xs as [|x xs IH]; intros s os sf Hs Hxs H; cbn [steps] in H.
  - injection H as <- <-. auto.
  - inversion Hxs; subst.
    apply bind_ok in H as ([[o s'] i0] & Hf & H). apply bind_ok in H as ([os' sf'] & Hst & H).
    injection H as <- <-.
    rewrite call_false_g in Hf by (simpl; auto).
    destruct (Hop _ (Some s) _ _ _ H2 Hs Hf) as (G1 & G2 & _).
    destruct (IH _ _ _ G2 H3 Hst) as (G3 & G4 & L). simpl. auto.
Qed.

Lemma state_check_sig s s' : pyok s -> sig s' = sig s -> state_check s s' = Ok tt.
Proof.
  intros Hs H. assert (Hk := sig_sk _ _ H).
  assert (Hs' : pyok s') by (apply pyok_sk; rewrite Hk; now apply pyok_sk).
  unfold state_check. rewrite !to_type_ok by assumption. cbn [bind].
  pose proof (pyok_number s Hs) as Hn.
  assert (E := numbered s s eq_refl). assert (E' := numbered s' s Hk).
  assert (C : check_types_equality (vmap dtype_of s) (vmap dtype_of s') = Ok tt).
  { unfold check_types_equality. rewrite E, E', !vmap_vmap. rewrite pv_eqb_vmap by assumption.
    replace (forallb _ _) with true; [reflexivity|]. symmetry. apply forallb_forall. intros j Hj.
    apply dtype_eqb_eq. pose proof (getleaf_sig s' s j H) as T. unfold tsig in T. congruence. }
  rewrite C. cbn [bind]. unfold check_shapes.
  set (f := fun l : list (pyval tensor) => match l with
       | [Leaf x; Leaf y] => if shape_eqb (sh x) (sh y) then Ok (Leaf tt) else Err EShape
       | _ => Err EType end).
  assert (M : map_fn f s [s; s'] = Ok (vmap (fun _ => tt) (number 0 s))).
  { rewrite E at 1 2. rewrite E'.
    change [vmap (getleaf s) (number 0 s); vmap (getleaf s') (number 0 s)] with
      (map (fun g => vmap g (number 0 s)) [getleaf s; getleaf s']).
    rewrite map_fn_vmap by assumption.
    apply (vmapM_ok (fun j => if shape_eqb (sh (getleaf s j)) (sh (getleaf s' j)) then Ok tt else Err EShape)
             (fun _ => tt)) in Hn as V.
    2:{ intros j Hj. pose proof (getleaf_sig s' s j H) as T. unfold tsig in T.
        replace (sh (getleaf s' j)) with (sh (getleaf s j)) by congruence.
        now rewrite shape_eqb_refl. }
    rewrite <- V. apply vmapM_ext. intros j _. unfold f. cbn [map].
    destruct (shape_eqb (sh (getleaf s j)) (sh (getleaf s' j))); reflexivity. }
  change ((let* _ := map_fn f s [s; s'] in Ok tt) = Ok tt). now rewrite M.
Qed.

Lemma stepsC_complete op : genuine_op op -> forall xs s os sf,
  genuine s -> Forall genuine xs -> steps op s xs = Ok (os, sf) -> steady_state op s xs ->
  stepsC op s xs = Ok (os, sf).
Proof.
  intros Hop. induction xs as [|x xs IH]; intros s os sf Hs Hxs H SS; cbn [steps] in H.
  - exact H.
  - inversion Hxs; subst. cbn [stepsC].
    apply bind_ok in H as ([[o s'] i0] & Hc & H). apply bind_ok in H as ([os' sf'] & Hst & H).
    injection H as <- <-.
    assert (Hf := Hc). rewrite call_false_g in Hf by (simpl; auto).
    destruct (Hop _ (Some s) _ _ _ H2 Hs Hf) as (G1 & G2 & _).
    rewrite Hf. cbn [bind].
    assert (Es : sig s' = sig s).
    { apply (SS 1 [o]); [simpl; lia|]. simpl. rewrite Hc. reflexivity. }
    rewrite state_check_sig by auto. cbn [bind].
    rewrite (IH _ _ _ G2 H3 Hst); [reflexivity|].
    intros k os0 s0 Hk H0. rewrite Es. apply (SS (S k) (o :: os0)); [simpl; lia|].
    cbn [firstn steps]. rewrite Hc. cbn [bind]. rewrite H0. reflexivity.
Qed.

(** ** C01 *)
Lemma rows_length n v : length (rows n v) = n.
Proof. unfold rows. now rewrite map_length, seq_length. Qed.

Lemma row_vmap {I} (s : pyval I) (O : I -> tensor) (f : I -> tensor) i :
  (forall j, In j (leaves s) -> trow i (O j) = f j) -> row i (vmap O s) = vmap f s.
Proof. intros H. unfold row. rewrite vmap_vmap. now apply vmap_ext. Qed.

Lemma tstack_nth ts t i : tstack ts = Ok t -> Forall wf ts -> i < length ts -> trow i t = nth i ts dummy.
Proof.
  intros H W Hi. apply tstack_iff in H as (NE & S & ->). now apply stackT_facts.
Qed.

(** Outputs of one structure: what the TensorArrays hold at the end. *)
Lemma arrays_rows o0 os n tas tasf outs :
  genuine o0 -> Forall genuine os -> Forall (fun o => sk o = sk o0) os -> length os = n ->
  ta_new_all o0 n = Ok tas -> write_from 0 os tas = Ok tasf -> ta_stack_all tasf = Ok outs ->
  genuine outs /\ forall i, i < n -> row i outs = nth i os (Tup []).
Proof.
  intros Go Gos Ezs L Ht Hw Hstk.
  assert (Eos := numbered_list os o0 Ezs).
  assert (Eo0 := numbered o0 o0 eq_refl).
  assert (A := proj1 (arrays_iff (number 0 o0) (getleaf o0) (map getleaf os) n outs
     (pyok_number o0 (genuine_pyok _ Go)) ltac:(now rewrite map_length))).
  rewrite <- Eos, <- Eo0 in A.
  destruct A as [A1 A2]; [eauto|].
  assert (W : forall j, In j (leaves (number 0 o0)) -> Forall wf (map (fun f => f j) (map getleaf os))).
  { intros j Hj. rewrite map_map. apply Forall_map. rewrite Forall_forall in *.
    intros o Ho. destruct (Gos o Ho) as [_ Wo]. rewrite Forall_forall in Wo. apply Wo.
    apply (getleaf_in o o0); auto. }
  split.
  - subst outs. split; [apply pyok_vmap, pyok_number, genuine_pyok, Go|].
    rewrite leaves_vmap, Forall_map. apply Forall_forall. intros j Hj.
    destruct (A1 j Hj) as (_ & t & Et). rewrite Et. simpl.
    apply tstack_iff in Et as (NE & HS & ->). apply stackT_facts; auto.
  - intros i Hi. subst outs.
    assert (Hno : nth i os (Tup []) = vmap (getleaf (nth i os (Tup []))) (number 0 o0)).
    { apply numbered. rewrite Forall_forall in Ezs. apply Ezs, nth_In. lia. }
    rewrite Hno.
    apply row_vmap. intros j Hj.
    destruct (A1 j Hj) as (_ & t & Et). rewrite Et. simpl getok.
    rewrite (tstack_nth _ _ i Et) by (auto; rewrite !map_length; lia).
    rewrite map_map.
    rewrite (nth_indep _ dummy (getleaf (Tup []) j)) by (rewrite map_length; lia).
    apply (map_nth (fun o => getleaf o j)).
Qed.

Lemma arrays_exist o0 os n :
  pyok o0 -> Forall (fun o => sig o = sig o0) os -> length os = n -> n > 0 ->
  exists tas tasf outs, ta_new_all o0 n = Ok tas /\ write_from 0 os tas = Ok tasf /\ ta_stack_all tasf = Ok outs.
Proof.
  intros Go Ezs L Hpos.
  assert (Esk : Forall (fun o => sk o = sk o0) os).
  { eapply Forall_impl; [|exact Ezs]. intros o. apply sig_sk. }
  assert (Eos := numbered_list os o0 Esk).
  assert (Eo0 := numbered o0 o0 eq_refl).
  set (outs := vmap (fun j => getok dummy (tstack (map (fun f => f j) (map getleaf os)))) (number 0 o0)).
  assert (A := proj2 (arrays_iff (number 0 o0) (getleaf o0) (map getleaf os) n outs
     (pyok_number o0 Go) ltac:(now rewrite map_length))).
  assert (T : forall j, In j (leaves (number 0 o0)) ->
     Forall (fun f => tsig (f j) = tsig (getleaf o0 j)) (map getleaf os)).
  { intros j Hj. apply Forall_map. eapply Forall_impl; [|exact Ezs].
    intros o Ho. now apply getleaf_sig. }
  rewrite <- Eos, <- Eo0 in A.
  destruct A as (tas & tasf & A1 & A2 & A3).
  { split; [|reflexivity]. intros j Hj. specialize (T j Hj). split.
    - eapply Forall_impl; [|exact T]. intros f Hfj. unfold tsig in Hfj. congruence.
    - eexists. apply tstack_iff. split.
      + destruct os; [simpl in L; lia|discriminate].
      + split; [|reflexivity]. rewrite Forall_map.
        destruct os as [|o os]; [simpl in L; lia|]. cbn [map hd] in *.
        inversion T as [|? ? T0 T1]; subst. constructor; auto.
        eapply Forall_impl; [|exact T1]. intros f Hfj. unfold tsig in *. split; congruence. }
  eauto 10.
Qed.

(** A prefix of outputs that can be stacked can be stacked; and so can a suffix. *)
Lemma arrays_sub o0 o1 os pre os' post n m tas tasf outs :
  pyok o0 -> Forall (fun o => sk o = sk o0) os -> length os = n ->
  ta_new_all o0 n = Ok tas -> write_from 0 os tas = Ok tasf -> ta_stack_all tasf = Ok outs ->
  os = pre ++ os' ++ post -> length os' = m -> m > 0 -> (o1 = o0 \/ In o1 os) ->
  exists tas' tasf' outs',
    ta_new_all o1 m = Ok tas' /\ write_from 0 os' tas' = Ok tasf' /\ ta_stack_all tasf' = Ok outs'.
Proof.
  intros Go Ezs L Ht Hw Hstk Eapp L' Hm Ho1.
  assert (Eos := numbered_list os o0 Ezs).
  assert (Eo0 := numbered o0 o0 eq_refl).
  assert (Pn := pyok_number o0 Go).
  assert (A := proj1 (arrays_iff (number 0 o0) (getleaf o0) (map getleaf os) n outs
     Pn ltac:(now rewrite map_length))).
  rewrite <- Eos, <- Eo0 in A.
  destruct A as [A1 A2]; [eauto|].
  assert (Ezs' : Forall (fun o => sk o = sk o0) os').
  { rewrite Eapp in Ezs. apply Forall_app in Ezs as [_ Ezs]. now apply Forall_app in Ezs as [? _]. }
  assert (Eos' := numbered_list os' o0 Ezs').
  assert (E1 : sk o1 = sk o0).
  { destruct Ho1 as [->|Hin]; auto. rewrite Forall_forall in Ezs. auto. }
  assert (Eo1 := numbered o1 o0 E1).
  set (outs' := vmap (fun j => getok dummy (tstack (map (fun f => f j) (map getleaf os')))) (number 0 o0)).
  assert (B := proj2 (arrays_iff (number 0 o0) (getleaf o1) (map getleaf os') m outs'
     Pn ltac:(now rewrite map_length))).
  rewrite <- Eos', <- Eo1 in B.
  destruct B as (tas' & tasf' & B1 & B2 & B3).
  { split; [|reflexivity]. intros j Hj. destruct (A1 j Hj) as (D & t & Et).
    assert (D1 : dtype_of (getleaf o1 j) = dtype_of (getleaf o0 j)).
    { destruct Ho1 as [->|Hin]; auto. rewrite Forall_map, Forall_forall in D. auto. }
    rewrite D1.
    apply tstack_iff in Et as (NE & S & _).
    assert (S' : forall o o', In o os -> In o' os ->
       sh (getleaf o j) = sh (getleaf o' j) /\ dtype_of (getleaf o j) = dtype_of (getleaf o' j)).
    { intros o o' Ho Ho'. rewrite !Forall_map, Forall_forall in S.
      destruct (S o Ho) as [Sa Sb]. destruct (S o' Ho') as [Sc Sd]. split; congruence. }
    split.
    - rewrite Forall_map in *. rewrite Eapp in D. apply Forall_app in D as [_ D]. now apply Forall_app in D as [? _].
    - eexists. apply tstack_iff. split; [destruct os'; [simpl in L'; lia|discriminate]|].
      split; [|reflexivity]. rewrite !Forall_map. apply Forall_forall. intros o Ho.
      destruct os' as [|o' os']; [destruct Ho|]. cbn [map hd].
      apply S'; rewrite Eapp; apply in_or_app; right; apply in_or_app; left; auto. now left. }
  eauto 10.
Qed.

Lemma streamed_start op v st n outs sf s0 :
  genuine v -> genuine_opt st -> genuine_op op -> is_series n v ->
  call op v st true = Ok (outs, sf, s0) ->
  n > 0 /\ genuine s0 /\ starts_from op st (row 0 v) s0 /\
  exists o0 s1 i0 os tas tasf,
    forward_step op (row 0 v) st = Ok (o0, s1, i0) /\ s0 = match st with Some s => s | None => i0 end /\
    genuine o0 /\
    stepsC op s0 (rows n v) = Ok (os, sf) /\ steps op s0 (rows n v) = Ok (os, sf) /\
    Forall genuine os /\ length os = n /\ genuine sf /\
    ta_new_all o0 n = Ok tas /\ write_from 0 os tas = Ok tasf /\ ta_stack_all tasf = Ok outs.
Proof.
  intros Gv Gst Gop Hn H. rewrite call_true in H by eauto.
  apply (streamed_iff op v st n) in H; auto.
  destruct H as (Hpos & o0 & s1 & i0 & tas & os & tasf & Hf & E0 & Ht & Hsteps & Hw & Hstk).
  assert (G0 : genuine (row 0 v)) by (apply (genuine_row n); auto).
  destruct (Gop _ _ _ _ _ G0 Gst Hf) as (Go & Gs1 & Gi).
  assert (Gs0 : genuine s0) by (subst s0; destruct st; auto).
  assert (Gx := genuine_rows n v Gv Hn).
  destruct (stepsC_sound op Gop _ _ _ _ Gs0 Gx Hsteps) as (Hst & Gos & Gsf & L).
  rewrite rows_length in L.
  split; auto. split; auto. split.
  { unfold starts_from. destruct st as [s|]; auto. subst s0.
    exists o0, s1. now rewrite call_false_g. }
  exists o0, s1, i0, os, tas, tasf. auto 20.
Qed.

Lemma series_of_call op v st r : pyok v -> genuine_opt st ->
  call op v st true = Ok r -> exists n, is_series n v.
Proof.
  intros Hv Hst H. rewrite call_true in H by eauto. unfold call_streamed in H.
  apply bind_ok in H as (n & Hn & _). apply input_size_ok in Hn; eauto.
Qed.

Lemma series_unique n m v : is_series n v -> is_series m v -> n = m.
Proof.
  intros [H1 H2] [_ H3]. destruct (leaves v) as [|t l]; [easy|].
  inversion H2 as [|? ? (s & E)]; subst. inversion H3 as [|? ? (s' & E')]; subst. congruence.
Qed.

Theorem streaming_sound op v st outs sf s0 :
  genuine v -> genuine_opt st -> genuine_op op ->
  call op v st true = Ok (outs, sf, s0) ->
  exists n os,
    n > 0 /\ is_series n v /\ starts_from op st (row 0 v) s0 /\
    steps op s0 (rows n v) = Ok (os, sf) /\ length os = n /\
    (uniform sk op st v n -> genuine outs /\ forall i, i < n -> row i outs = nth i os (Tup [])).
Proof.
  intros Gv Gst Gop H.
  destruct (series_of_call _ _ _ _ (genuine_pyok _ Gv) Gst H) as (n & Hn).
  destruct (streamed_start op v st n outs sf s0 Gv Gst Gop Hn H)
    as (Hpos & Gs0 & Hstart & o0 & s1 & i0 & os & tas & tasf & Hf & E0 & Go & HC & HS & Gos & L & Gsf & Ht & Hw & Hstk).
  exists n, os. repeat (split; [assumption|]).
  intros (z & U1 & U2).
  assert (Ez : sk o0 = z).
  { apply (U1 o0 s1 i0). rewrite call_false_g; auto. apply (genuine_row n); auto. }
  subst z. apply (arrays_rows o0 os n tas tasf outs); auto. exact (U2 _ _ _ Hstart HS).
Qed.

Lemma complete_core op v st n s0 o0 s1 i0 os sf :
  genuine v -> genuine_opt st -> is_series n v -> n > 0 ->
  forward_step op (row 0 v) st = Ok (o0, s1, i0) -> s0 = match st with Some s => s | None => i0 end ->
  stepsC op s0 (rows n v) = Ok (os, sf) -> length os = n ->
  pyok o0 -> Forall (fun o => sig o = sig o0) os ->
  exists tas tasf outs, call op v st true = Ok (outs, sf, s0) /\
    ta_new_all o0 n = Ok tas /\ write_from 0 os tas = Ok tasf /\ ta_stack_all tasf = Ok outs.
Proof.
  intros Gv Gst Hn Hpos Hf E0 HC L Go Ez.
  destruct (arrays_exist o0 os n Go Ez L Hpos) as (tas & tasf & outs & A1 & A2 & A3).
  exists tas, tasf, outs. split; auto.
  rewrite call_true by eauto. apply (streamed_iff op v st n); auto.
  split; auto. exists o0, s1, i0, tas, os, tasf. auto 10.
Qed.

Theorem streaming_complete op v st n s0 os sf :
  genuine v -> genuine_opt st -> genuine_op op -> is_series n v -> n > 0 ->
  starts_from op st (row 0 v) s0 ->
  steps op s0 (rows n v) = Ok (os, sf) ->
  uniform sig op st v n -> steady_state op s0 (rows n v) ->
  exists outs, call op v st true = Ok (outs, sf, s0) /\ genuine outs /\
    forall i, i < n -> row i outs = nth i os (Tup []).
Proof.
  intros Gv Gst Gop Hn Hpos Hstart Hst (z & U1 & U2) SS.
  assert (G0 : genuine (row 0 v)) by (apply (genuine_row n); auto).
  assert (Gx := genuine_rows n v Gv Hn).
  assert (HF : exists o0 s1 i0, forward_step op (row 0 v) st = Ok (o0, s1, i0) /\
             s0 = match st with Some s => s | None => i0 end).
  { destruct st as [s|].
    - simpl in Hstart. subst s0. destruct n as [|n]; [lia|].
      unfold rows in Hst. cbn [seq map steps] in Hst.
      apply bind_ok in Hst as ([[o0 s1] i0] & Hc & _).
      rewrite call_false_g in Hc by auto. eauto.
    - destruct Hstart as (o & s' & Hc). rewrite call_false_g in Hc by auto. eauto. }
  destruct HF as (o0 & s1 & i0 & Hf & E0).
  destruct (Gop _ _ _ _ _ G0 Gst Hf) as (Go & Gs1 & Gi).
  assert (Gs0 : genuine s0) by (subst s0; destruct st; auto).
  assert (Hsteps := stepsC_complete op Gop _ _ _ _ Gs0 Gx Hst SS).
  destruct (steps_genuine op Gop _ _ _ _ Gs0 Gx Hst) as (Gos & Gsf & L).
  rewrite rows_length in L.
  assert (Ez : sig o0 = z). { apply (U1 o0 s1 i0). now rewrite call_false_g. }
  assert (Ezs := U2 _ _ _ Hstart Hst). subst z.
  destruct (complete_core op v st n s0 o0 s1 i0 os sf) as (tas & tasf & outs & C & A1 & A2 & A3); auto.
  exists outs. split; [exact C|].
  apply (arrays_rows o0 os n tas tasf outs); auto.
  eapply Forall_impl; [|exact Ezs]. intros o. apply sig_sk.
Qed.

(** ** C02 and C03 *)
Lemma stepsC_app op xs ys : forall s,
  stepsC op s (xs ++ ys) =
  let* (os1, s1) := stepsC op s xs in
  let* (os2, s2) := stepsC op s1 ys in Ok (os1 ++ os2, s2).
Proof.
  induction xs as [|x xs IH]; intros s; cbn [app stepsC bind].
  - destruct (stepsC op s ys) as [[os2 s2]|]; reflexivity.
  - destruct (forward_step op x (Some s)) as [[[o s'] i]|]; cbn [bind]; [|reflexivity].
    destruct (state_check s s') as [u|]; cbn [bind]; [|reflexivity].
    rewrite IH. destruct (stepsC op s' xs) as [[os1 s1]|]; cbn [bind]; [|reflexivity].
    destruct (stepsC op s1 ys) as [[os2 s2]|]; cbn [bind]; reflexivity.
Qed.
Lemma steps_app op xs ys : forall s,
  steps op s (xs ++ ys) =
  let* (os1, s1) := steps op s xs in
  let* (os2, s2) := steps op s1 ys in Ok (os1 ++ os2, s2).
Proof.
  induction xs as [|x xs IH]; intros s; cbn [app steps bind].
  - destruct (steps op s ys) as [[os2 s2]|]; reflexivity.
  - destruct (call op x (Some s) false) as [[[o s'] i]|]; cbn [bind]; [|reflexivity].
    rewrite IH. destruct (steps op s' xs) as [[os1 s1]|]; cbn [bind]; [|reflexivity].
    destruct (steps op s1 ys) as [[os2 s2]|]; cbn [bind]; reflexivity.
Qed.

Lemma seq_from n m : seq n m = map (fun i => n + i) (seq 0 m).
Proof.
  revert n; induction m as [|m IH]; intros n; simpl; [reflexivity|]. rewrite Nat.add_0_r. f_equal.
  rewrite (IH (S n)), (IH 1), map_map. apply map_ext. intros. lia.
Qed.
Lemma rows_concat n m a b v : is_concat n m a b v -> rows (n + m) v = rows n a ++ rows m b.
Proof.
  intros (_ & _ & _ & H1 & H2). unfold rows. rewrite seq_app, map_app. f_equal.
  - apply map_ext_in. intros i Hi. apply in_seq in Hi. apply H1. lia.
  - simpl. rewrite (seq_from n m), map_map. apply map_ext_in. intros i Hi.
    apply in_seq in Hi. apply H2. lia.
Qed.

Theorem resume_join op a b v st n m o1 s1 i1 o2 s2 i2 :
  genuine a -> genuine b -> genuine v -> genuine_opt st -> genuine_op op ->
  is_concat n m a b v -> uniform sig op st v (n + m) ->
  call op a st true = Ok (o1, s1, i1) ->
  call op b (Some s1) true = Ok (o2, s2, i2) ->
  exists o, call op v st true = Ok (o, s2, i1) /\ genuine o /\
    (forall i, i < n -> row i o = row i o1) /\ (forall i, i < m -> row (n + i) o = row i o2).
Proof.
  intros Ga Gb Gv Gst Gop HC (z & U1 & U2) H1 H2.
  assert (HR := rows_concat _ _ _ _ _ HC).
  destruct HC as (Sa & Sb & Sv & R1 & R2).
  destruct (streamed_start op a st n o1 s1 i1 Ga Gst Gop Sa H1)
    as (Hp & Gs0 & Hstart & oa & sa & ia & os & tas & tasf & Hf & E0 & Go & HCa & HSa & Gos & L & Gsf & Ht & Hw & Hstk).
  destruct (streamed_start op b (Some s1) m o2 s2 i2 Gb Gsf Gop Sb H2)
    as (Hp' & Gs0' & Hstart' & ob & sb & ib & os' & tas' & tasf' & Hf' & E0' & Go' & HCb & HSb & Gos' & L' & Gsf' & Ht' & Hw' & Hstk').
  subst i2.
  assert (R0 : row 0 v = row 0 a) by (apply R1; lia).
  assert (HCv : stepsC op i1 (rows (n + m) v) = Ok (os ++ os', s2)).
  { rewrite HR, stepsC_app, HCa. cbn [bind]. rewrite HCb. reflexivity. }
  assert (HSv : steps op i1 (rows (n + m) v) = Ok (os ++ os', s2)).
  { rewrite HR, steps_app, HSa. cbn [bind]. rewrite HSb. reflexivity. }
  rewrite R0 in U1, U2.
  assert (Ez : sig oa = z). { apply (U1 oa sa ia). rewrite call_false_g; auto. apply (genuine_row n); auto. }
  assert (Ezs := U2 _ _ _ Hstart HSv). subst z.
  rewrite <- R0 in Hf.
  destruct (complete_core op v st (n + m) i1 oa sa ia (os ++ os') s2) as (tv & tvf & outs & C & A1 & A2 & A3); auto.
  { lia. } { rewrite app_length. lia. }
  assert (Esk : Forall (fun o => sk o = sk oa) (os ++ os')).
  { eapply Forall_impl; [|exact Ezs]. intros o. apply sig_sk. }
  exists outs. split; [exact C|].
  destruct (arrays_rows oa (os ++ os') (n + m) tv tvf outs) as [Gouts Rv]; auto.
  { now apply Forall_app. } { rewrite app_length. lia. }
  assert (Esk12 := Esk). apply Forall_app in Esk12 as [Esk1 Esk2].
  destruct (arrays_rows oa os n tas tasf o1) as [_ Ra]; auto.
  assert (Eob : sk ob = sk oa).
  { destruct m as [|m']; [lia|]. unfold rows in HSb. cbn [seq map steps] in HSb.
    apply bind_ok in HSb as ([[o s'] i] & Hc & HSb). apply bind_ok in HSb as ([os'' sf'] & _ & HSb).
    injection HSb as <- <-.
    rewrite call_false_g in Hc; simpl; auto; [|apply (genuine_row (S m')); auto; lia].
    rewrite Hf' in Hc. injection Hc as -> _ _. now inversion Esk2. }
  destruct (arrays_rows ob os' m tas' tasf' o2) as [_ Rb]; auto.
  { rewrite Eob. auto. }
  split; auto. split.
  - intros i Hi. rewrite Rv, Ra by lia. apply app_nth1. lia.
  - intros i Hi. rewrite Rv, Rb by lia. rewrite app_nth2 by lia. f_equal. lia.
Qed.

Theorem resume_split op a b v st n m o s2 i1 :
  genuine a -> genuine b -> genuine v -> genuine_opt st -> genuine_op op ->
  is_concat n m a b v -> n > 0 -> m > 0 -> uniform sk op st v (n + m) ->
  call op v st true = Ok (o, s2, i1) ->
  exists o1 s1 o2,
    call op a st true = Ok (o1, s1, i1) /\
    call op b (Some s1) true = Ok (o2, s2, s1) /\
    (forall i, i < n -> row i o = row i o1) /\ (forall i, i < m -> row (n + i) o = row i o2).
Proof.
  intros Ga Gb Gv Gst Gop HC Hn Hm (z & U1 & U2) H.
  assert (HR := rows_concat _ _ _ _ _ HC).
  destruct HC as (Sa & Sb & Sv & R1 & R2).
  destruct (streamed_start op v st (n + m) o s2 i1 Gv Gst Gop Sv H)
    as (Hp & Gs0 & Hstart & oa & sa & ia & os & tas & tasf & Hf & E0 & Go & HCv & HSv & Gos & L & Gsf & Ht & Hw & Hstk).
  assert (R0 : row 0 v = row 0 a) by (apply R1; lia).
  assert (Ez : sk oa = z).
  { apply (U1 oa sa ia). rewrite call_false_g; auto. apply (genuine_row (n + m)); auto. }
  assert (Ezs := U2 _ _ _ Hstart HSv). subst z.
  rewrite HR, stepsC_app in HCv.
  apply bind_ok in HCv as ([os1 s1] & HCa & HCv).
  apply bind_ok in HCv as ([os2 s2'] & HCb & HCv). injection HCv as <- ->.
  assert (Gra := genuine_rows n a Ga Sa). assert (Grb := genuine_rows m b Gb Sb).
  destruct (stepsC_sound op Gop _ _ _ _ Gs0 Gra HCa) as (HSa & Gos1 & Gs1 & L1).
  destruct (stepsC_sound op Gop _ _ _ _ Gs1 Grb HCb) as (HSb & Gos2 & _ & L2).
  rewrite rows_length in L1, L2.
  assert (EskF := Ezs). apply Forall_app in EskF as [Esk1 Esk2].
  destruct (arrays_sub oa oa (os1 ++ os2) [] os1 os2 (n + m) n tas tasf o) as (ta & taf & outa & A1 & A2 & A3); auto.
  assert (HFb : exists ob sb ib os2', forward_step op (row 0 b) (Some s1) = Ok (ob, sb, ib) /\ os2 = ob :: os2').
  { destruct m as [|m']; [lia|]. unfold rows in HSb. cbn [seq map steps] in HSb.
    apply bind_ok in HSb as ([[o' s'] i] & Hc & HSb). apply bind_ok in HSb as ([os'' sf'] & _ & HSb).
    injection HSb as <- <-.
    rewrite call_false_g in Hc; simpl; auto; [|apply (genuine_row (S m')); auto; lia]. eauto 10. }
  destruct HFb as (ob & sb & ib & os2' & Hfb & Eos2).
  destruct (arrays_sub oa ob (os1 ++ os2) os1 os2 [] (n + m) m tas tasf o) as (tb & tbf & outb & B1 & B2 & B3); auto.
  { now rewrite app_nil_r. }
  { right. apply in_or_app. right. rewrite Eos2. now left. }
  exists outa, s1, outb.
  rewrite (call_true op a) by eauto.
  split.
  { apply (streamed_iff op a st n); auto. split; auto. exists oa, sa, ia, ta, os1, taf.
    rewrite <- R0. auto 10. }
  split.
  { rewrite call_true by (auto; intros ? E; injection E as <-; auto). apply (streamed_iff op b (Some s1) m); auto. split; auto. exists ob, sb, ib, tb, os2, tbf. auto 10. }
  destruct (arrays_rows oa (os1 ++ os2) (n + m) tas tasf o) as [_ Rv]; auto.
  destruct (arrays_rows oa os1 n ta taf outa) as [_ Ra]; auto.
  assert (Gob : genuine ob). { rewrite Eos2 in Gos2. now inversion Gos2. }
  assert (Eob : sk ob = sk oa). { rewrite Eos2 in Esk2. now inversion Esk2. }
  destruct (arrays_rows ob os2 m tb tbf outb) as [_ Rb]; auto.
  { rewrite Eob. auto. }
  split.
  - intros i Hi. rewrite Rv, Ra by lia. apply app_nth1. lia.
  - intros i Hi. rewrite Rv, Rb by lia. rewrite app_nth2 by lia. f_equal. lia.
Qed.

Theorem causal op a v st n m o s2 i1 :
  genuine a -> genuine v -> genuine_opt st -> genuine_op op ->
  is_series n a -> is_series m v -> n <= m -> n > 0 -> (forall i, i < n -> row i a = row i v) ->
  uniform sk op st v m ->
  call op v st true = Ok (o, s2, i1) ->
  exists o1 s1, call op a st true = Ok (o1, s1, i1) /\ (forall i, i < n -> row i o1 = row i o).
Proof.
  intros Ga Gv Gst Gop Sa Sv Hnm Hn R (z & U1 & U2) H.
  destruct (streamed_start op v st m o s2 i1 Gv Gst Gop Sv H)
    as (Hp & Gs0 & Hstart & oa & sa & ia & os & tas & tasf & Hf & E0 & Go & HCv & HSv & Gos & L & Gsf & Ht & Hw & Hstk).
  assert (R0 : row 0 a = row 0 v) by (apply R; lia).
  assert (Ez : sk oa = z).
  { apply (U1 oa sa ia). rewrite call_false_g; auto. apply (genuine_row m); auto. }
  assert (Ezs := U2 _ _ _ Hstart HSv). subst z.
  assert (HR : rows m v = rows n a ++ map (fun i => row i v) (seq n (m - n))).
  { unfold rows. replace m with (n + (m - n)) at 1 by lia. rewrite seq_app, map_app. f_equal.
    apply map_ext_in. intros i Hi. apply in_seq in Hi. symmetry. apply R. lia. }
  rewrite HR, stepsC_app in HCv.
  apply bind_ok in HCv as ([os1 s1] & HCa & HCv).
  apply bind_ok in HCv as ([os2 s2'] & HCb & HCv). injection HCv as <- ->.
  assert (Gra := genuine_rows n a Ga Sa).
  destruct (stepsC_sound op Gop _ _ _ _ Gs0 Gra HCa) as (HSa & Gos1 & Gs1 & L1).
  rewrite rows_length in L1.
  destruct (arrays_sub oa oa (os1 ++ os2) [] os1 os2 m n tas tasf o) as (ta & taf & outa & A1 & A2 & A3); auto.
  exists outa, s1. split.
  { rewrite call_true by eauto.
    apply (streamed_iff op a st n); auto. split; auto. exists oa, sa, ia, ta, os1, taf.
    rewrite R0. auto 10. }
  destruct (arrays_rows oa (os1 ++ os2) m tas tasf o) as [_ Rv]; auto.
  assert (EskF := Ezs). apply Forall_app in EskF as [Esk1 Esk2].
  apply Forall_app in Gos as [Gos1' Gos2].
  destruct (arrays_rows oa os1 n ta taf outa) as [_ Ra]; auto.
  intros i Hi. rewrite Rv, Ra by lia. symmetry. apply app_nth1. lia.
Qed.

(** ** C05 *)
Theorem unequal_sizes op v st t1 t2 n1 n2 r1 r2 :
  pyok v -> In t1 (leaves v) -> In t2 (leaves v) -> sh t1 = n1 :: r1 -> sh t2 = n2 :: r2 -> n1 <> n2 ->
  exists e, call op v st true = Err e.
Proof.
  intros Hv H1 H2 E1 E2 NE.
  destruct (call op v st true) as [r|e] eqn:C; [|eauto]. exfalso.
  unfold call in C. rewrite convert_ok in C by assumption. cbn [bind] in C.
  apply bind_ok in C as (st' & _ & C). unfold call_streamed in C.
  apply bind_ok in C as (n & Hn & _). apply input_size_ok in Hn; auto.
  destruct Hn as [_ F]. rewrite Forall_forall in F.
  destruct (F t1 H1) as (s1 & F1). destruct (F t2 H2) as (s2 & F2). congruence.
Qed.
(** With tensors of rank at least 1 and a genuine state the error is the size check. *)
Theorem unequal_sizes_error op v st t1 t2 n1 n2 r1 r2 :
  pyok v -> genuine_opt st -> Forall (fun t => sh t <> []) (leaves v) ->
  In t1 (leaves v) -> In t2 (leaves v) -> sh t1 = n1 :: r1 -> sh t2 = n2 :: r2 -> n1 <> n2 ->
  call op v st true = Err ESizes.
Proof.
  intros Hv Gst HR H1 H2 E1 E2 NE.
  rewrite call_true by eauto. unfold call_streamed.
  assert (E : input_size v = Err ESizes); [|now rewrite E].
  destruct (input_size v) as [n|e] eqn:I.
  - exfalso. apply input_size_ok in I; auto. destruct I as [_ F]. rewrite Forall_forall in F.
    destruct (F t1 H1) as (s1 & F1). destruct (F t2 H2) as (s2 & F2). congruence.
  - unfold input_size in I. rewrite flatten_ok, mapM_map in I by assumption. simpl in I.
    assert (M : mapM (fun x => size0 x) (leaves v) = Ok (map (fun t => hd 0 (sh t)) (leaves v))).
    { clear -HR. induction HR as [|t l Ht _ IH]; simpl; [reflexivity|].
      rewrite IH. unfold size0. destruct (sh t); [easy|]. reflexivity. }
    rewrite M in I. cbn [bind] in I. destruct (leaves v) as [|t l]; [destruct H1|].
    cbn [map] in I. destruct (forallb _ _); [discriminate|]. congruence.
Qed.

(** ** C06 *)
Lemma pv_eqb_trans {A} (e : A -> A -> bool) :
  (forall a b c, e a b = true -> e b c = true -> e a c = true) ->
  forall u v w : pyval A, pv_eqb e u v = true -> pv_eqb e v w = true -> pv_eqb e u w = true.
Proof.
  intros T u. induction u as [a|l IH|l IH|l IH|l IH] using pyval_ind'; intros v w H1 H2;
    destruct v as [b|m|m|m|m]; try discriminate H1; destruct w as [c|p|p|p|p]; try discriminate H2.
  - simpl in *. eauto.
  - cbn [pv_eqb] in *. revert m p H1 H2. induction IH as [|x l Hx _ IHl]; intros m p H1 H2;
      destruct m as [|y m]; try discriminate H1; destruct p as [|z p]; try discriminate H2; auto.
    apply andb_true_iff in H1 as [H1 H1']. apply andb_true_iff in H2 as [H2 H2'].
    apply andb_true_iff. split; eauto.
  - cbn [pv_eqb] in *. revert m p H1 H2. induction IH as [|x l Hx _ IHl]; intros m p H1 H2;
      destruct m as [|y m]; try discriminate H1; destruct p as [|z p]; try discriminate H2; auto.
    apply andb_true_iff in H1 as [H1 H1']. apply andb_true_iff in H2 as [H2 H2'].
    apply andb_true_iff. split; eauto.
  - cbn [pv_eqb] in *. apply andb_true_iff in H1 as [L1 H1]. apply andb_true_iff in H2 as [L2 H2].
    apply Nat.eqb_eq in L1, L2. rewrite L1, L2, Nat.eqb_refl. cbn [andb]. clear L1 L2.
    assert (K : forall k y, assoc k m = Some y -> exists z, assoc k p = Some z /\ pv_eqb e y z = true).
    { clear -H2. intros k y H. induction m as [|[k' y'] m IH]; [discriminate|].
      simpl in *. destruct (String.eqb_spec k k') as [->|NE].
      - injection H as ->. destruct (assoc k' p) as [z|]; [|discriminate].
        apply andb_true_iff in H2 as [H2 _]. eauto.
      - destruct (assoc k' p) as [z|]; [|discriminate]. apply andb_true_iff in H2 as [_ H2]. auto. }
    induction IH as [|[k x] l Hx _ IHl]; [reflexivity|].
    destruct (assoc k m) as [y|] eqn:E; [|discriminate].
    apply andb_true_iff in H1 as [H1 H1']. destruct (K k y E) as (z & -> & Hz).
    apply andb_true_iff. split; [eapply Hx; eauto|auto].
Qed.

Lemma dtype_eqb_trans a b c : dtype_eqb a b = true -> dtype_eqb b c = true -> dtype_eqb a c = true.
Proof. now destruct a, b, c. Qed.

Lemma same_types_refl s : pyok s -> same_types s s = true.
Proof.
  intros H. unfold same_types. rewrite pv_eqb_vmap by assumption.
  apply forallb_forall. intros. apply dtype_eqb_refl.
Qed.
Lemma state_check_types s s' : pyok s -> pyok s' -> state_check s s' = Ok tt -> same_types s s' = true.
Proof.
  intros H1 H2 H. unfold state_check in H. rewrite !to_type_ok in H by assumption. cbn [bind] in H.
  unfold check_types_equality in H. unfold same_types. destruct (pv_eqb _ _ _); [reflexivity|discriminate].
Qed.
Lemma stepsC_types op : genuine_op op -> forall xs s os sf,
  genuine s -> Forall genuine xs -> stepsC op s xs = Ok (os, sf) -> same_types s sf = true.
Proof.
  intros Hop. induction xs as [|x xs IH]; intros s os sf Hs Hxs H; cbn [stepsC] in H.
  - injection H as <- <-. apply same_types_refl. auto.
  - inversion Hxs; subst.
    apply bind_ok in H as ([[o s'] i0] & Hf & H). apply bind_ok in H as (u & Hc & H).
    apply bind_ok in H as ([os' sf'] & Hst & H). injection H as <- <-.
    destruct (Hop _ (Some s) _ _ _ H2 Hs Hf) as (G1 & G2 & _). destruct u.
    eapply pv_eqb_trans; [apply dtype_eqb_trans|apply state_check_types; eauto|].
    eapply IH; eauto.
Qed.
Theorem types_preserved op v st outs sf s0 :
  genuine v -> genuine_opt st -> genuine_op op ->
  call op v st true = Ok (outs, sf, s0) -> same_types s0 sf = true.
Proof.
  intros Gv Gst Gop H.
  destruct (series_of_call _ _ _ _ (genuine_pyok _ Gv) Gst H) as (n & Hn).
  destruct (streamed_start op v st n outs sf s0 Gv Gst Gop Hn H)
    as (Hpos & Gs0 & Hstart & o0 & s1 & i0 & os & tas & tasf & Hf & E0 & Go & HC & _).
  apply (stepsC_types op Gop (rows n v) s0 os sf Gs0); auto. now apply (genuine_rows n).
Qed.
Lemma starts_from_unique op st x s s' : starts_from op st x s -> starts_from op st x s' -> s = s'.
Proof.
  unfold starts_from. destruct st; [congruence|]. intros (o & t & H) (o' & t' & H'). congruence.
Qed.
Theorem types_rejected op v st n s0 i os s o s' s'' :
  genuine v -> genuine_opt st -> genuine_op op -> is_series n v -> i < n ->
  starts_from op st (row 0 v) s0 ->
  steps op s0 (rows i v) = Ok (os, s) ->
  call op (row i v) (Some s) false = Ok (o, s', s'') ->
  same_types s s' = false ->
  exists e, call op v st true = Err e.
Proof.
  intros Gv Gst Gop Hn Hi Hstart Hpre Hstep Hty.
  destruct (call op v st true) as [[[outs sf] s0']|e] eqn:C; [exfalso|eauto].
  destruct (streamed_start op v st n outs sf s0' Gv Gst Gop Hn C)
    as (Hpos & Gs0 & Hstart' & o0 & s1 & i0 & os' & tas & tasf & Hf & E0 & Go & HC & _).
  rewrite (starts_from_unique _ _ _ _ _ Hstart Hstart') in Hpre. 
  assert (HR : rows n v = rows i v ++ row i v :: map (fun i => row i v) (seq (S i) (n - S i))).
  { unfold rows. replace n with (i + S (n - S i)) at 1 by lia. rewrite seq_app, map_app. reflexivity. }
  assert (Gx := genuine_rows n v Gv Hn). rewrite HR in Gx.
  apply Forall_app in Gx as [Gx1 Gx2]. inversion Gx2 as [|? ? Gxi Gx3]; subst.
  rewrite HR, stepsC_app in HC.
  apply bind_ok in HC as ([os1 s1'] & HC1 & HC).
  destruct (stepsC_sound op Gop _ _ _ _ Gs0 Gx1 HC1) as (HS & _ & Gs & _).
  rewrite Hpre in HS. injection HS as -> ->.
  apply bind_ok in HC as ([os2 s2] & HC2 & _). cbn [stepsC] in HC2.
  rewrite call_false_g in Hstep; simpl; auto. rewrite Hstep in HC2. cbn [bind] in HC2.
  apply bind_ok in HC2 as ([] & Hck & _).
  destruct (Gop _ (Some s1') _ _ _ Gxi Gs Hstep) as (_ & Gs' & _).
  rewrite state_check_types in Hty; auto. discriminate.
Qed.

(** ** C07: needs no assumption on the operator. *)
Lemma map_fn_leaves {A B} (P : A -> Prop) (Q : B -> Prop) (f : list (pyval A) -> res (pyval B)) :
  (forall l y, Forall (fun o => Forall P (leaves o)) l -> f l = Ok y -> Forall Q (leaves y)) ->
  forall obj objs r, Forall (fun o => Forall P (leaves o)) objs -> map_fn f obj objs = Ok r ->
  Forall Q (leaves r).
Proof.
  intros Hf obj. induction obj as [a|l IH|l IH|l IH|l IH] using pyval_ind'; intros objs r Ho H.
  - simpl in H. eauto.
  - cbn [map_fn] in H. apply bind_ok in H as (its & Hits & H). apply bind_ok in H as (r' & Hr & H).
    injection H as <-. cbn [leaves].
    assert (HI : Forall (Forall (fun o => Forall P (leaves o))) its).
    { apply mapM_ok_iff in Hits. clear -Hits Ho. induction Hits as [|o it os its E _ IHits]; constructor.
      - inversion Ho; subst. destruct o; try discriminate E; injection E as <-; simpl in *; now apply Forall_flat_map.
      - inversion Ho; auto. }
    clear Hits Ho. revert its r' HI Hr. induction IH as [|x l Hx _ IHl]; intros its r' HI Hr.
    + injection Hr as <-. constructor.
    + destruct (heads its) as [[hs ts]|] eqn:Hh; [|injection Hr as <-; constructor].
      apply bind_ok in Hr as (v' & Hv & Hr). apply bind_ok in Hr as (r'' & Hr' & Hr). injection Hr as <-.
      assert (HH : Forall (fun o => Forall P (leaves o)) hs /\ Forall (Forall (fun o => Forall P (leaves o))) ts).
      { clear -HI Hh. revert hs ts Hh. induction HI as [|it its Hit _ IHits]; intros hs ts Hh.
        - injection Hh as <- <-. auto.
        - simpl in Hh. destruct it as [|y it]; [discriminate|].
          destruct (heads its) as [[hs' ts']|]; [|discriminate]. injection Hh as <- <-.
          inversion Hit; subst. destruct (IHits _ _ eq_refl). auto. }
      destruct HH. simpl. apply Forall_app. split; eauto.
  - cbn [map_fn] in H. apply bind_ok in H as (its & Hits & H). apply bind_ok in H as (r' & Hr & H).
    injection H as <-. cbn [leaves].
    assert (HI : Forall (Forall (fun o => Forall P (leaves o))) its).
    { apply mapM_ok_iff in Hits. clear -Hits Ho. induction Hits as [|o it os its E _ IHits]; constructor.
      - inversion Ho; subst. destruct o; try discriminate E; injection E as <-; simpl in *; now apply Forall_flat_map.
      - inversion Ho; auto. }
    clear Hits Ho. revert its r' HI Hr. induction IH as [|x l Hx _ IHl]; intros its r' HI Hr.
    + injection Hr as <-. constructor.
    + destruct (heads its) as [[hs ts]|] eqn:Hh; [|injection Hr as <-; constructor].
      apply bind_ok in Hr as (v' & Hv & Hr). apply bind_ok in Hr as (r'' & Hr' & Hr). injection Hr as <-.
      assert (HH : Forall (fun o => Forall P (leaves o)) hs /\ Forall (Forall (fun o => Forall P (leaves o))) ts).
      { clear -HI Hh. revert hs ts Hh. induction HI as [|it its Hit _ IHits]; intros hs ts Hh.
        - injection Hh as <- <-. auto.
        - simpl in Hh. destruct it as [|y it]; [discriminate|].
          destruct (heads its) as [[hs' ts']|]; [|discriminate]. injection Hh as <- <-.
          inversion Hit; subst. destruct (IHits _ _ eq_refl). auto. }
      destruct HH. simpl. apply Forall_app. split; eauto.
  - cbn [map_fn] in H. apply bind_ok in H as (r' & Hr & H). injection H as <-. cbn [leaves].
    revert r' Hr. induction IH as [|[k x] l Hx _ IHl]; intros r' Hr.
    + injection Hr as <-. constructor.
    + apply bind_ok in Hr as (os & Hos & Hr). apply bind_ok in Hr as (v' & Hv & Hr).
      apply bind_ok in Hr as (r'' & Hr' & Hr). injection Hr as <-. simpl. apply Forall_app. split; [|eauto].
      apply (Hx os); auto. apply mapM_ok_iff in Hos. clear -Hos Ho.
      induction Hos as [|o y os ys E _ IHos]; constructor; inversion Ho; subst; auto.
      destruct o as [|?|?|m|?]; try discriminate E. simpl in E. destruct (assoc k m) as [z|] eqn:As; [|discriminate].
      injection E as <-. simpl in H1. rewrite Forall_flat_map in H1. rewrite Forall_forall in H1.
      clear -H1 As. induction m as [|[k' y'] m IH]; [discriminate|]. simpl in As.
      destruct (String.eqb k k').
      * injection As as <-. apply (H1 (k', y')). now left.
      * apply IH; auto. intros x Hx. apply H1. now right.
  - simpl in H. eauto.
Qed.

Lemma set_nth_length {A} n (x : A) l : length (set_nth n x l) = length l.
Proof. revert n; induction l; intros [|n]; simpl; auto. Qed.

Definition cells_n (n : nat) (a : tarray) : Prop := length (ta_cells a) = n.
Lemma ta_write_all_cells n i o tas r :
  Forall (cells_n n) (leaves tas) -> ta_write_all i o tas = Ok r -> Forall (cells_n n) (leaves r).
Proof.
  intros H W. unfold ta_write_all in W. apply bind_ok in W as (r' & W & E).
  destruct (pv_eqb _ _ _); [|discriminate]. injection E as <-.
  refine (map_fn_leaves (fun m : mixed => match m with inl _ => True | inr a => cells_n n a end)
            (cells_n n) _ _ _ _ _ _ W).
  - intros l y Hl E. destruct l as [|[[x|x]|?|?|?|?] [|[[z|z]|?|?|?|?] [|? ?]]]; try discriminate E.
    apply bind_ok in E as (a & E & Hy). injection Hy as <-. simpl.
    inversion Hl as [|? ? _ Hl']; subst. inversion Hl' as [|? ? Hz _]; subst. simpl in Hz.
    inversion Hz as [|? ? Hz' _]; subst. constructor; auto.
    unfold ta_write in E. destruct (dtype_eqb _ _); [|discriminate].
    destruct (nth_error _ _) as [[|]|]; try discriminate. injection E as <-.
    unfold cells_n in *. simpl. now rewrite set_nth_length.
  - constructor; [|constructor; [|constructor]].
    + rewrite leaves_vmap, Forall_map. apply Forall_forall. auto.
    + rewrite leaves_vmap, Forall_map. exact H.
Qed.

Theorem output_lengths op v st outs sf s0 n :
  pyok v -> is_series n v -> call op v st true = Ok (outs, sf, s0) ->
  Forall (fun t => exists r, sh t = n :: r) (leaves outs).
Proof.
  intros Hv Hn H. unfold call in H. rewrite convert_ok in H by assumption. cbn [bind] in H.
  apply bind_ok in H as (st' & _ & H).
  apply (streamed_iff op v st' n) in H; auto.
  destruct H as (_ & o0 & s1 & i0 & tas & os & tasf & _ & _ & Ht & _ & Hw & Hstk).
  assert (H0 : Forall (cells_n n) (leaves tas)).
  { refine (map_fn_leaves (fun _ => True) (cells_n n) _ _ _ _ _ _ Ht).
    - intros l y _ E. destruct l as [|[x|?|?|?|?] [|? ?]]; try discriminate E. injection E as <-.
      simpl. constructor; auto. unfold cells_n. simpl. apply repeat_length.
    - constructor; auto. apply Forall_forall. auto. }
  assert (H1 : Forall (cells_n n) (leaves tasf)).
  { clear -H0 Hw. revert Hw H0. generalize 0. revert tas.
    induction os as [|o os IH]; intros tas i Hw H0; simpl in Hw.
    - injection Hw as <-. auto.
    - apply bind_ok in Hw as (t' & E & Hw). eapply IH; eauto. eapply ta_write_all_cells; eauto. }
  refine (map_fn_leaves (cells_n n) _ _ _ _ _ _ _ Hstk).
  - intros l y Hl E. destruct l as [|[x|?|?|?|?] [|? ?]]; try discriminate E.
    apply bind_ok in E as (t & E & Hy). injection Hy as <-. simpl.
    inversion Hl as [|? ? Hx _]; subst. simpl in Hx. inversion Hx as [|? ? Hx' _]; subst.
    constructor; auto. unfold ta_stack in E. apply bind_ok in E as (ts & Hts & E).
    apply mapM_length in Hts. apply tstack_iff in E as (_ & _ & ->). unfold stackT. simpl.
    unfold cells_n in Hx'. rewrite Hts, Hx'. eauto.
  - constructor; auto.
Qed.
End StreamProofs.
