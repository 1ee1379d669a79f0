(** * ShapeMap: on inputs of the right shapes, Map streams every column on its own, and Join every branch. *)
From Coq Require Import List ZArith Bool Lia.
From Verif Require Import Num Py PyFacts Tensor Streamable Spec SpecMeta StreamFacts TensorFacts StreamProofs
  WfFacts Meta Common Finance Library GenuineBase GenuineLib InitLib MapFacts Shapes ShapeFacts ShapeProofs ShapeStream ShapeInit.
Import ListNotations.

Section ShapeMap.
Context {N : FOps}.
Section Columns.
Context (op : operator) (n : nat) (zx zo zs : ztype) (W : well_shaped op zx zo zs) (Hn : n >= 1) (NE : leaves zx <> []).
Let H : safe op zx zo zs := proj1 well_shaped_safe _ _ _ _ W.
Let Gop : genuine_op op := well_shaped_genuine _ _ _ _ W.

Lemma shaped_kept x s : vhas x (wide n zx) -> vhas s (wide n zs) -> kept_rows op x s n (sk zo).
Proof.
  intros Hx Hv j o s' i _ Hj E. destruct (H (row j x) (Some (row j s))) as (r & E' & [_ H1] & [_ H2] & _); [now apply (row_vhas n)|now apply (row_vhas n)|].
  rewrite E' in E. injection E as ->. cbn [fst snd] in *. split; [|now apply sk_sig]. rewrite (sk_sig s' zs H2). destruct Hv as [_ Hv].
  rewrite (sk_sig s _ Hv). unfold wide. now rewrite sk_vmap.
Qed.
(** A step of Map steps every column. *)
Lemma map_columns_step x s o s' i : vhas x (wide n zx) -> vhas s (wide n zs) ->
  call (Map op n) x (Some (Tup [s])) false = Ok (o, s', i) ->
  exists ns, s' = Tup [ns] /\ vhas ns (wide n zs) /\ forall j, j < n -> exists i', call op (row j x) (Some (row j s)) false = Ok (row j o, row j ns, i').
Proof.
  intros Hx Hs E. assert (Hts : vhas (Tup [s]) (Tup [wide n zs])) by (apply vhas_tup; apply Forall2_cons; [exact Hs|apply Forall2_nil]).
  assert (HM := map_safe op n zx zo zs Gop Hn NE H).
  rewrite call_false_g in E; [|apply Hx|apply Hts].
  destruct (HM x (Some (Tup [s])) Hx Hts) as (r & E' & _ & H2 & _). rewrite E' in E. injection E as ->. cbn [fst snd] in H2.
  apply (map_once' op n n (sk zo) Gop) in E'; auto; [|apply Hx|apply Hs|now apply (wide_series n x zx)|now apply shaped_kept|].
  - destruct E' as (_ & _ & ns & -> & _ & _ & _ & _ & _ & _ & R). exists ns. split; [reflexivity|].
    destruct (vhas_tup_inv _ _ H2) as (vs & Ev & Hv). injection Ev as <-. inversion Hv; subst. split; [assumption|].
    intros j Hj. destruct (R j Hj) as (i' & R'). exists i'. rewrite call_false_g; [exact R'| |]; cbn; apply (row_vhas n _ _ j) in Hx, Hs; auto; [apply Hx|apply Hs].
  - intros o' t i' E. destruct (H (row 0 x) None) as (r & Er & [_ Ho] & _); [now apply (row_vhas n)|exact I|].
    rewrite Er in E. injection E as ->. now apply sk_sig.
Qed.
Lemma map_columns_steps j : j < n -> forall xs s os sf, Forall (fun x => vhas x (wide n zx)) xs -> vhas s (wide n zs) ->
  steps (Map op n) (Tup [s]) xs = Ok (os, sf) ->
  exists ns, sf = Tup [ns] /\ steps op (row j s) (map (row j) xs) = Ok (map (row j) os, row j ns).
Proof.
  intros Hj. induction xs as [|x xs IH]; intros s os sf Hx Hs E; cbn [steps map] in *.
  - injection E as <- <-. exists s. auto.
  - inversion Hx as [|? ? Hx1 Hx2]; subst. apply bind_ok in E as ([[o s'] i] & E1 & E). apply bind_ok in E as ([os' sf'] & E2 & E). injection E as <- <-.
    destruct (map_columns_step x s o s' i Hx1 Hs E1) as (ns & -> & Hns & R). destruct (R j Hj) as (i' & R').
    destruct (IH ns os' sf' Hx2 Hns E2) as (nsf & -> & R2). exists nsf. split; [reflexivity|]. rewrite R'. cbn [bind]. rewrite R2. reflexivity.
Qed.
Lemma column_vhas T j v w : T > 0 -> j < n -> vhas v (wide T (wide n zx)) -> is_column T j v w -> vhas w (wide T zx).
Proof.
  intros HT Hj Hv (Gw & Sw & R). split; [exact Gw|]. apply series_tall in Sw as [_ Tw]. rewrite (sig_tall T w Tw). unfold wide. f_equal.
  rewrite (R 0 HT). apply (row_vhas n); [|exact Hj]. now apply (row_vhas T).
Qed.
Lemma wide_leaves k z : leaves z <> [] -> leaves (wide k z) <> [].
Proof. intros K E. apply K. unfold wide in E. rewrite leaves_vmap in E. now apply map_eq_nil in E. Qed.

Theorem map_shaped T v st : T > 0 -> vhas v (wide T (wide n zx)) -> state_shaped st (wide n zs) ->
  exists outs ns s, call (Map op n) v (option_map (fun s => Tup [s]) st) true = Ok (outs, Tup [ns], Tup [s]) /\
    vhas outs (wide T (wide n zo)) /\ vhas ns (wide n zs) /\ vhas s (wide n zs) /\
    forall j w, j < n -> is_column T j v w -> exists out,
      call op w (option_map (row j) st) true = Ok (out, row j ns, row j s) /\ forall i, i < T -> row i out = row j (row i outs).
Proof.
  intros HT Hv Hs. assert (HM := map_safe op n zx zo zs Gop Hn NE H). assert (GM := genuine_map op n Gop).
  assert (Hst : state_shaped (option_map (fun s => Tup [s]) st) (Tup [wide n zs])).
  { destruct st as [s|]; [|exact I]. change (vhas (Tup [s]) (Tup [wide n zs])). apply vhas_tup, Forall2_cons; [exact Hs|apply Forall2_nil]. }
  destruct (safe_series (Map op n) (wide n zx) (wide n zo) (Tup [wide n zs]) HM GM v _ T (wide_leaves n zx NE) HT Hv Hst)
    as (outs & sf & s0 & os & C & Ho & Hf & H0 & HS & E & R).
  destruct (vhas_tup_inv _ _ H0) as (vs & -> & Hvs). inversion Hvs as [|s ? ? ? Hs0 Hnil]; subst. inversion Hnil; subst.
  destruct (vhas_tup_inv _ _ Hf) as (vs & -> & Hvf). inversion Hvf as [|ns ? ? ? Hns Hnil']; subst. inversion Hnil'; subst.
  exists outs, ns, s. split; [exact C|]. split; [exact Ho|]. split; [exact Hns|]. split; [exact Hs0|].
  intros j w Hj Hw. assert (Vw := column_vhas T j v w HT Hj Hv Hw).
  assert (Hsj : state_shaped (option_map (row j) st) zs) by (destruct st as [t|]; [apply (row_vhas n t zs j); auto|exact I]).
  destruct (safe_series op zx zo zs H Gop w _ T NE HT Vw Hsj) as (out & sf' & s0' & os' & C' & _ & _ & _ & HS' & E' & R').
  assert (s0' = row j s) as ->.
  { destruct st as [t|]; cbn [option_map starts_from] in HS, HS'.
    - injection HS as ->. exact HS'.
    - destruct HS as (o1 & s1 & HS), HS' as (o2 & s2 & HS'). destruct Hw as (_ & _ & Rw). rewrite (Rw 0 HT) in HS'.
      assert (V0 : vhas (row 0 v) (wide n zx)) by now apply (row_vhas T).
      destruct (H (row 0 (row 0 v)) None) as ([[o3 s3] i3] & E3 & _ & _ & Hi3); [now apply (row_vhas n)|exact I|]. cbn [snd] in Hi3.
      assert (s0' = i3) as ->.
      { eapply (proj1 well_shaped_det op zx zo zs W); [| | |exact E3]; [apply (row_vhas n); eauto| now apply (row_vhas n)|].
        rewrite call_false_g in HS'; [exact HS'| |exact I]. apply (row_vhas n _ zx); auto. }
      rewrite call_false_g in HS; [|apply V0|exact I].
      rewrite (map_fresh op n (row 0 v) o3 s3 i3 n) in HS; auto; [|apply V0|now apply (wide_series n _ zx)].
      assert (Vt := vhas_tile n i3 zs Hi3).
      apply (map_once' op n n (sk zo) Gop) in HS; auto; [|apply V0|apply Vt|now apply (wide_series n _ zx)|now apply shaped_kept|].
      + destruct HS as (_ & Es & _). injection Es as ->. symmetry. apply row_tile; [apply Hi3|now left].
      + intros o' t i' E4. rewrite E3 in E4. injection E4 as <- <- <-. apply sk_sig.
        destruct (H (row 0 (row 0 v)) None) as (r & Er & [_ Hr] & _); [now apply (row_vhas n)|exact I|]. rewrite E3 in Er. injection Er as <-. exact Hr. }
  destruct (map_columns_steps j Hj (rows T v) s os (Tup [ns]) (wide_rows _ T v Hv) Hs0 E) as (ns' & En & ES). injection En as <-.
  assert (Er : rows T w = map (row j) (rows T v)).
  { unfold rows. rewrite map_map. apply map_ext_in. intros i Hi. apply in_seq in Hi. apply Hw. lia. }
  rewrite Er, ES in E'. injection E' as <- <-. exists out. split; [exact C'|]. intros i Hi. rewrite (R' i Hi), (R i Hi).
  assert (L := steps_length _ _ _ _ _ E). rewrite rows_length in L.
  rewrite (nth_indep _ _ (row j (Tup []))) by (rewrite map_length; lia). apply map_nth.
Qed.
End Columns.
End ShapeMap.
