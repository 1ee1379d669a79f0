(** * DetailsFacts: the drawdown periods. *)
From Coq Require Import List ZArith Bool Lia.
From Verif Require Import B32 Num Py PyFacts Tensor Streamable Common Finance Spec Series Formulas ImplMarket
  SpecHelpers HelperFacts.
Import ListNotations.

(** ** The runs of a list exist and are unique *)
Section Runs.
Context {A : Type} (up : A -> bool).
Fixpoint split_runs (l : list A) : list (list A) :=
  match l with
  | [] => []
  | x :: r =>
      if up x then match r with
                   | [] => [[x]]
                   | y :: _ => if up y then match split_runs r with g :: gs => (x :: g) :: gs | [] => [[x]] end
                               else [x] :: split_runs r
                   end
      else split_runs r
  end.
Lemma runs_skip x l gs : up x = false -> runs_of up l gs -> runs_of up (x :: l) gs.
Proof.
  intros Hx H. inversion H; subst.
  - apply runs_none. now constructor.
  - change (x :: zs ++ g ++ rest) with ((x :: zs) ++ g ++ rest). apply runs_one; auto.
Qed.
Lemma split_up x l : up x = true -> exists g gs, split_runs (x :: l) = (x :: g) :: gs.
Proof.
  intros Hx. cbn [split_runs]. rewrite Hx. destruct l as [|y l]; [eauto|].
  destruct (up y); [|eauto]. destruct (split_runs (y :: l)); eauto.
Qed.
Lemma split_runs_of l : runs_of up l (split_runs l).
Proof.
  induction l as [|x l IH]; [now apply runs_none|].
  destruct (up x) eqn:Hx.
  - destruct l as [|y l].
    + cbn [split_runs]. rewrite Hx. apply (runs_one up [] [x] [] []); auto; discriminate.
    + destruct (up y) eqn:Hy.
      * destruct (split_up y l Hy) as (g & gs & E). rewrite E in IH.
        change (split_runs (x :: y :: l)) with (if up x then if up y then
          match split_runs (y :: l) with g :: gs => (x :: g) :: gs | [] => [[x]] end else [x] :: split_runs (y :: l)
          else split_runs (y :: l)).
        rewrite Hx, Hy, E. inversion IH as [|zs g' rest gs' Hz NE Hg Hr R E1 E2]. subst g' gs'.
        destruct zs as [|z zs].
        -- apply (runs_one up [] (x :: y :: g) rest); auto; discriminate.
        -- cbn [app] in E1. injection E1 as -> _. inversion Hz; subst. congruence.
      * cbn [split_runs] in *. rewrite Hx, Hy in *. 
        apply (runs_one up [] [x] (y :: l)); auto. discriminate.
  - cbn [split_runs]. rewrite Hx. now apply runs_skip.
Qed.
Lemma split_down zs l : Forall (fun x => up x = false) zs -> split_runs (zs ++ l) = split_runs l.
Proof. induction 1 as [|z zs Hz _ IH]; [reflexivity|]. cbn [app split_runs]. now rewrite Hz. Qed.
Lemma split_run g rest : g <> [] -> Forall (fun x => up x = true) g ->
  match rest with [] => True | x :: _ => up x = false end -> split_runs (g ++ rest) = g :: split_runs rest.
Proof.
  intros NE H Hr. induction H as [|x g Hx Hg IH]; [easy|]. clear NE.
  destruct g as [|y g].
  - cbn [app split_runs]. rewrite Hx. destruct rest as [|z rest]; [reflexivity|]. now rewrite Hr.
  - specialize (IH ltac:(discriminate)). cbn [app] in *.
    change (split_runs (x :: y :: g ++ rest)) with (if up x then if up y then
          match split_runs (y :: g ++ rest) with g :: gs => (x :: g) :: gs | [] => [[x]] end else [x] :: split_runs (y :: g ++ rest)
          else split_runs (y :: g ++ rest)).
    inversion Hg; subst. now rewrite Hx, H1, IH.
Qed.
Lemma runs_split l gs : runs_of up l gs -> gs = split_runs l.
Proof.
  induction 1 as [zs Hz|zs g rest gs Hz NE Hg Hr _ ->].
  - rewrite <- (app_nil_r zs), split_down by assumption. reflexivity.
  - rewrite split_down by assumption. now rewrite split_run.
Qed.
Theorem runs_exist l : exists gs, runs_of up l gs /\ forall gs', runs_of up l gs' -> gs' = gs.
Proof. exists (split_runs l). split; [apply split_runs_of|apply runs_split]. Qed.
End Runs.

(** ** Where the periods begin and end *)
Local Open Scope Z_scope.
Fixpoint begs (k : nat) (c : list Z) : list nat :=
  match c with [] => [] | x :: r => if x =? 1 then k :: begs (S k) r else begs (S k) r end.
Fixpoint ends (k : nat) (c : list Z) : list nat :=
  match c with [] => [] | x :: r => if (x >? 0) && (hd 0 r =? 0) then k :: ends (S k) r else ends (S k) r end.
Fixpoint counting (p : Z) (c : list Z) : Prop :=
  match c with [] => True | x :: r => (x = 0 \/ x = p + 1) /\ counting x r end.

Lemma pick_begs c : forall k, pick (map (fun x => x =? 1) (c ++ [0])) (seq k (length c)) = begs k c.
Proof.
  induction c as [|x c IH]; intros k; [reflexivity|]. cbn [app map length seq begs]. unfold pick. cbn [combine filter fst].
  destruct (x =? 1); cbn [map snd]; fold (pick (map (fun x => x =? 1) (c ++ [0])) (seq (S k) (length c))); now rewrite IH.
Qed.
Lemma consecutive_cons {A B} (f : A -> A -> B) a b l : map_consecutive_fn f (a :: b :: l) = f b a :: map_consecutive_fn f (b :: l).
Proof. reflexivity. Qed.
Lemma pick_ends c : forall k,
  pick (map_consecutive_fn (fun x y => (y >? 0) && (x =? 0)) (c ++ [0])) (seq k (length c)) = ends k c.
Proof.
  induction c as [|x c IH]; intros k; [reflexivity|].
  assert (E : map_consecutive_fn (fun x y => (y >? 0) && (x =? 0)) ((x :: c) ++ [0]) =
    ((x >? 0) && (hd 0 c =? 0)) :: map_consecutive_fn (fun x y => (y >? 0) && (x =? 0)) (c ++ [0])).
  { destruct c; reflexivity. }
  rewrite E. cbn [length seq ends]. unfold pick. cbn [combine filter fst].
  destruct ((x >? 0) && (hd 0 c =? 0)); cbn [map snd]; specialize (IH (S k)); unfold pick in IH; now rewrite IH.
Qed.
Lemma begs_app a b : forall k, begs k (a ++ b) = begs k a ++ begs (k + length a)%nat b.
Proof.
  induction a as [|x a IH]; intros k; cbn [app length begs]; [now rewrite Nat.add_0_r|].
  rewrite IH. replace (S k + length a)%nat with (k + S (length a))%nat by lia. now destruct (x =? 1).
Qed.
Lemma begs_none c : Forall (fun x => x <> 1) c -> forall k, begs k c = [].
Proof.
  induction 1 as [|x c Hx _ IH]; intros k; [reflexivity|]. cbn [begs].
  apply Z.eqb_neq in Hx. now rewrite Hx.
Qed.
Lemma ends_down zs r : Forall (fun x => x <= 0) zs -> forall k, ends k (zs ++ r) = ends (k + length zs)%nat r.
Proof.
  induction 1 as [|x c Hx _ IH]; intros k; cbn [app length ends]; [now rewrite Nat.add_0_r|].
  destruct (x >? 0) eqn:E; [apply Z.gtb_lt in E; lia|]. cbn [andb]. rewrite IH. f_equal. lia.
Qed.
Lemma ends_run g r : g <> [] -> Forall (fun x => 0 < x) g -> hd 0 r = 0 ->
  forall k, ends k (g ++ r) = (k + length g - 1)%nat :: ends (k + length g)%nat r.
Proof.
  intros NE H Hr. induction H as [|x g Hx Hg IH]; [easy|]. clear NE. intros k.
  apply Z.gtb_lt in Hx. destruct g as [|y g].
  - cbn [app ends length]. rewrite Hx, Hr. cbn. f_equal; [lia|f_equal; lia].
  - specialize (IH ltac:(discriminate) (S k)). cbn [app length] in *.
    change (ends k (x :: y :: g ++ r)) with
      (if (x >? 0) && (y =? 0) then k :: ends (S k) (y :: g ++ r) else ends (S k) (y :: g ++ r)).
    inversion Hg; subst. assert (E : (y =? 0) = false) by (apply Z.eqb_neq; lia).
    rewrite Hx, E. cbn [andb]. rewrite IH. f_equal; [lia|f_equal; lia].
Qed.
(** in a run the counts follow each other *)
Lemma counting_run g r : forall p, 0 <= p -> counting p (g ++ r) -> Forall (fun x => 0 < x) g ->
  g = map (fun i => p + 1 + Z.of_nat i) (seq 0 (length g)) /\ counting (p + Z.of_nat (length g)) r.
Proof.
  induction g as [|x g IH]; intros p Hp C H.
  - split; [reflexivity|]. cbn [length Z.of_nat]. now rewrite Z.add_0_r.
  - inversion H; subst. cbn [app counting] in C. destruct C as [[-> | ->] C]; [lia|].
    destruct (IH (p + 1) ltac:(lia) C ltac:(assumption)) as [E1 E2]. split.
    + cbn [length seq map]. f_equal; [lia|]. rewrite <- seq_shift, map_map. rewrite E1 at 1.
      apply map_ext. intros. lia.
    + cbn [length]. replace (p + Z.of_nat (S (length g))) with (p + 1 + Z.of_nat (length g)) by lia. assumption.
Qed.
Lemma counting_restart p r : hd 0 r = 0 -> counting p r -> counting 0 r.
Proof. destruct r as [|x r]; [easy|]. cbn. intros -> [_ C]. auto. Qed.
Lemma counting_down zs r : forall p, 0 <= p -> counting p (zs ++ r) -> Forall (fun x => x <= 0) zs ->
  (p = 0 \/ zs <> []) -> counting 0 r.
Proof.
  intros p Hp C H. revert p Hp C. induction H as [|x zs Hx _ IH]; intros p Hp C D.
  - destruct D as [->|D]; [assumption|easy].
  - cbn [app counting] in C. destruct C as [[-> | ->] C]; [|lia].
    apply (IH 0); auto.
Qed.
Lemma fold_max l : forall a, (forall x, In x l -> x <= a) -> fold_left Z.max l a = a.
Proof.
  induction l as [|x l IH]; intros a H; [reflexivity|]. cbn [fold_left].
  assert (x <= a) by (apply H; now left). rewrite Z.max_l by assumption. apply IH. intros y Hy. apply H. now right.
Qed.
Lemma imax_run m : (0 < m)%nat -> imax_list (map (fun i => 1 + Z.of_nat i) (seq 0 m)) = Z.of_nat m.
Proof.
  intros H. unfold imax_list. destruct m as [|m]; [lia|].
  rewrite seq_S, map_app, fold_left_app. cbn [Nat.add map fold_left].
  assert (K : forall k a, (a <= Z.of_nat k) -> fold_left Z.max (map (fun i => 1 + Z.of_nat i) (seq 0 k)) a <= Z.of_nat k).
  { induction k as [|k IH]; intros a Ha; [exact Ha|]. rewrite seq_S, map_app, fold_left_app. cbn [Nat.add map fold_left].
    destruct (Z.le_gt_cases a (Z.of_nat k)) as [L|L]; [specialize (IH a L); lia|].
    rewrite fold_max; [lia|]. intros x Hx. apply in_map_iff in Hx as (i & <- & Hi). apply in_seq in Hi. lia. }
  specialize (K m (-2147483648) ltac:(lia)). lia.
Qed.

Section Details.
Context {N : FOps}.
(** What details computes for the beginning and the end of a period. *)
Definition period (out : list (F * Z)) (be : nat * nat) : F * Z :=
  let begin := (fst be - 1)%nat in
  let end_ := (snd be - 1)%nat in
  (frmin (lslice begin (end_ + 1 - begin) (map fst out)), imax_list (lslice begin (end_ + 1 - begin) (map snd out))).
Lemma lslice_mid {A} (a g b : list A) : lslice (length a) (length g) (a ++ g ++ b) = g.
Proof.
  unfold lslice. rewrite skipn_app, skipn_all, Nat.sub_diag. cbn [skipn app].
  rewrite firstn_app, firstn_all, Nat.sub_diag. cbn [firstn]. now rewrite app_nil_r.
Qed.
Lemma period_run (a g b : list (F * Z)) : g <> [] ->
  period (a ++ g ++ b) (S (length a), (S (length a) + length g - 1)%nat) = (frmin (map fst g), imax_list (map snd g)).
Proof.
  intros NE. assert (0 < length g)%nat by (destruct g; [easy|cbn; lia]). unfold period. cbn [fst snd].
  replace (S (length a) - 1)%nat with (length a) by lia.
  replace (S (length a) + length g - 1 - 1 + 1 - length a)%nat with (length g) by lia.
  rewrite !map_app. f_equal; f_equal.
  - rewrite <- (map_length fst a), <- (map_length fst g). apply lslice_mid.
  - rewrite <- (map_length snd a), <- (map_length snd g). apply lslice_mid.
Qed.
Lemma forall_up g : Forall (fun x => under x = true) g -> Forall (fun x => 0 < x) (map snd g).
Proof. rewrite Forall_map. apply Forall_impl. intros x H. now apply Z.ltb_lt. Qed.
Lemma forall_down g : Forall (fun x => under x = false) g -> Forall (fun x => x <= 0) (map snd g).
Proof. rewrite Forall_map. apply Forall_impl. intros x H. now apply Z.ltb_ge. Qed.
Lemma rest_zero p rest : 0 <= p -> counting p (map snd rest) ->
  match rest with [] => True | x :: _ => under x = false end -> hd 0 (map snd rest) = 0.
Proof.
  destruct rest as [|x rest]; [easy|]. cbn [map hd counting]. intros Hp [[E|E] _] H; [easy|].
  unfold under in H. apply Z.ltb_ge in H. lia.
Qed.
Lemma details_runs out gs : runs_of under out gs ->
  forall pre, counting 0 (map snd out) ->
  length (begs (S (length pre)) (map snd out)) = length (ends (S (length pre)) (map snd out)) /\
  map (period (pre ++ out)) (combine (begs (S (length pre)) (map snd out)) (ends (S (length pre)) (map snd out)))
  = map (fun g => (frmin (map fst g), Z.of_nat (length g))) gs.
Proof.
  induction 1 as [zs Hz|zs g rest gs Hz NE Hg Hr _ IH]; intros pre C.
  - apply forall_down in Hz. rewrite begs_none.
    2:{ eapply Forall_impl; [|exact Hz]. cbn. lia. }
    rewrite <- (app_nil_r (map snd zs)), ends_down by assumption. split; reflexivity.
  - apply forall_down in Hz. apply forall_up in Hg. rewrite !map_app in C |- *.
    apply (counting_down _ _ 0 ltac:(lia)) in C; [|assumption|now left].
    destruct (counting_run _ _ 0 ltac:(lia) C Hg) as [Eg Cr].
    assert (H0 : hd 0 (map snd rest) = 0) by (apply (rest_zero _ rest) in Cr; [assumption|lia|assumption]).
    apply (counting_restart _ _ H0) in Cr.
    assert (NE' : map snd g <> []) by (destruct g; easy).
    specialize (IH (pre ++ zs ++ g) Cr). rewrite !app_length in IH.
    rewrite !begs_app, (begs_none (map snd zs)) by (eapply Forall_impl; [|exact Hz]; cbn; lia).
    rewrite ends_down by assumption. rewrite ends_run by assumption. rewrite !map_length in *. cbn [app].
    assert (Eb : begs (S (length pre) + length zs)%nat (map snd g) = [(S (length pre) + length zs)%nat]).
    { destruct g as [|x g]; [easy|]. rewrite Eg. cbn [length seq map begs]. change (0 + 1 + Z.of_nat 0 =? 1) with true. cbv iota.
      f_equal. apply begs_none. rewrite Forall_map, Forall_forall. intros i Hi. apply in_seq in Hi. lia. }
    rewrite Eb. cbn [app]. replace (S (length pre + (length zs + length g)))%nat with (S (length pre) + length zs + length g)%nat in IH by lia.
    destruct IH as [L E]. split; [cbn [length]; now rewrite L|]. cbn [combine map]. f_equal.
    + assert (K := period_run (pre ++ zs) g rest NE). rewrite <- !app_assoc, app_length in K.
      cbn [Nat.add] in *. rewrite K. f_equal. rewrite Eg. rewrite <- (imax_run (length g)); [reflexivity|].
      destruct g; [easy|cbn; lia].
    + rewrite <- !app_assoc in E. exact E.
Qed.
(** details is computed from the beginnings and the ends *)
Lemma details_eq out : details (map fst out) (map snd out) =
  if Nat.eqb (length (begs 1 (map snd out))) (length (ends 1 (map snd out)))
  then Ok (map (period out) (combine (begs 1 (map snd out)) (ends 1 (map snd out)))) else Err EShape.
Proof.
  unfold details. set (c := map snd out). cbn [length]. rewrite app_length. cbn [length].
  replace (S (length c + 1) - 1)%nat with (S (length c)) by lia.
  rewrite !filter_law.
  - cbn [bind]. 
    assert (E1 : map snd (filter fst (combine (map (fun x => x =? 1) (0 :: c ++ [0])) (seq 0 (S (length c))))) = begs 1 c).
    { cbn [map seq combine filter fst Z.eqb]. apply pick_begs. }
    assert (E2 : map snd (filter fst (combine (map_consecutive_fn (fun x y => (y >? 0) && (x =? 0)) (0 :: c ++ [0])) (seq 0 (S (length c))))) = ends 1 c).
    { rewrite <- pick_ends. destruct c as [|x c']; [reflexivity|].
      cbn [app]. rewrite consecutive_cons. reflexivity. }
    rewrite E1, E2. reflexivity.
  - intros i H. rewrite seq_length. assert (Hl : (i < length (map_consecutive_fn (fun x y => (y >? 0)%Z && (x =? 0)%Z) (0%Z :: c ++ [0%Z])))%nat)
      by (apply nth_error_Some; rewrite H; discriminate).
    rewrite (proj1 (consecutive_law (fun x y => (y >? 0) && (x =? 0)) (0 :: c ++ [0]) 0 true)) in Hl.
    cbn [length] in Hl. rewrite app_length in Hl. cbn [length] in Hl. lia.
  - intros i H. rewrite seq_length. destruct i as [|i]; [lia|]. cbn [map nth_error] in H.
    rewrite nth_error_map in H. destruct (Nat.lt_ge_cases i (length c)) as [L|L]; [lia|].
    rewrite nth_error_app2 in H by assumption. destruct (i - length c)%nat as [|[|?]]; discriminate.
Qed.
Theorem details_counting out gs : counting 0 (map snd out) -> runs_of under out gs ->
  details (map fst out) (map snd out) = Ok (map (fun g => (frmin (map fst g), Z.of_nat (length g))) gs).
Proof.
  intros C R. rewrite details_eq. destruct (details_runs out gs R [] C) as [L E]. cbn [length app] in *.
  rewrite L, Nat.eqb_refl. f_equal. exact E.
Qed.
(** a series that starts inside a period has one end more than beginnings *)
Theorem details_inside p out : 0 < p -> counting p (map snd out) -> hd 0 (map snd out) <> 0 ->
  details (map fst out) (map snd out) = Err EShape.
Proof.
  intros Hp C H. rewrite details_eq.
  enough (E : length (ends 1 (map snd out)) = S (length (begs 1 (map snd out)))).
  { rewrite E. destruct (Nat.eqb_spec (length (begs 1 (map snd out))) (S (length (begs 1 (map snd out))))); [lia|reflexivity]. }
  destruct (runs_exist under out) as (gs & R & _). inversion R; subst.
  - destruct out as [|x out]; [easy|]. inversion H0; subst. apply Z.ltb_ge in H3. cbn [map hd counting] in *. lia.
  - destruct zs as [|z zs].
    2:{ inversion H0; subst. apply Z.ltb_ge in H7. cbn [app map hd counting] in *. lia. }
    cbn [app] in *. apply forall_up in H2. rewrite map_app in *.
    destruct (counting_run _ _ p ltac:(lia) C H2) as [Eg Cr].
    assert (Hz : hd 0 (map snd rest) = 0) by (apply (rest_zero _ rest) in Cr; [assumption|lia|assumption]).
    apply (counting_restart _ _ Hz) in Cr.
    assert (NE : map snd g <> []) by (destruct g; easy).
    rewrite begs_app, (begs_none (map snd g)).
    2:{ rewrite Eg. rewrite Forall_map, Forall_forall. intros i Hi. lia. }
    rewrite ends_run by assumption. cbn [app length]. f_equal.
    destruct (details_runs rest gs0 H4 g Cr) as [L _]. rewrite map_length.
    cbn [Nat.add]. now rewrite L.
Qed.
(** ** The counts of a stream *)
Lemma counting_hists xs : forall h, counting (under_water h) (map under_water (hists h xs)).
Proof.
  induction xs as [|x xs IH]; intros h; cbn [hists map counting]; [easy|]. split; [|apply IH].
  cbn [under_water]. destruct (flt _ _); [now left|now right].
Qed.
Definition dd (hs : list (list F)) := map (fun h => (drawdown h, under_water h)) hs.
Lemma snd_dd hs : map snd (dd hs) = map under_water hs.
Proof. unfold dd. now rewrite map_map. Qed.
Theorem details_fresh xs : xs <> [] -> below31 (rev xs) ->
  exists out sf s0, call Drawdown (scalars xs) None true = Ok (drawdowns out, sf, s0) /\ length out = length xs /\
    forall gs, runs_of under out gs ->
      details (map fst out) (map snd out) = Ok (map (fun g => (frmin (map fst g), Z.of_nat (length g))) gs) /\
      avg (map fst out) (map snd out) =
        Ok (fmean (map (fun g => frmin (map fst g)) gs), fmean (map (fun g => f_of_Z (Z.of_nat (length g))) gs)).
Proof.
  intros NE B. destruct drawdown_streams as (st & H & _).
  exists (dd (hists [] xs)), (st (rev xs)), (st []). split; [now apply H|]. split.
  { unfold dd. rewrite map_length. assert (L : forall h, length (hists h xs) = length xs); [|apply L].
    clear. induction xs; intros; cbn; auto. }
  intros gs R.
  assert (E : details (map fst (dd (hists [] xs))) (map snd (dd (hists [] xs))) = Ok (map (fun g => (frmin (map fst g), Z.of_nat (length g))) gs)).
  { apply details_counting; auto. rewrite snd_dd. apply (counting_hists xs []). }
  split; [exact E|]. unfold avg. rewrite E. cbn [bind]. now rewrite !map_map.
Qed.
Theorem details_resumed xs ys : xs <> [] -> ys <> [] -> below31 (rev ys ++ rev xs) ->
  exists out1 s1 s0 out2 s2, call Drawdown (scalars xs) None true = Ok (drawdowns out1, s1, s0) /\
    call Drawdown (scalars ys) (Some s1) true = Ok (drawdowns out2, s2, s1) /\
    ((0 < snd (last out1 (f0, 0)) /\ 0 < snd (hd (f0, 0) out2)) ->
     details (map fst out2) (map snd out2) = Err EShape /\ avg (map fst out2) (map snd out2) = Err EShape) /\
    (snd (last out1 (f0, 0)) = 0 \/ snd (hd (f0, 0) out2) = 0 ->
     forall gs, runs_of under out2 gs ->
       details (map fst out2) (map snd out2) = Ok (map (fun g => (frmin (map fst g), Z.of_nat (length g))) gs) /\
       avg (map fst out2) (map snd out2) =
         Ok (fmean (map (fun g => frmin (map fst g)) gs), fmean (map (fun g => f_of_Z (Z.of_nat (length g))) gs))).
Proof.
  intros NX NY B. destruct drawdown_streams as (st & H1 & H2).
  exists (dd (hists [] xs)), (st (rev xs)), (st []), (dd (hists (rev xs) ys)), (st (rev ys ++ rev xs)).
  split. { apply H1; auto. unfold below31 in *. rewrite app_length in B. lia. }
  split; [now apply H2|].
  assert (La : snd (last (dd (hists [] xs)) (f0, 0)) = under_water (rev xs)).
  { assert (K : forall h xs, xs <> [] -> last (dd (hists h xs)) (f0, 0) = (drawdown (rev xs ++ h), under_water (rev xs ++ h))).
    { clear. intros h xs. revert h. induction xs as [|x xs IH]; intros h NE; [easy|].
      destruct xs as [|y xs]; [reflexivity|]. specialize (IH (x :: h) ltac:(discriminate)).
      cbn [hists dd map] in *. change (rev (x :: y :: xs)) with (rev (y :: xs) ++ [x]). rewrite <- app_assoc. cbn [app].
      exact IH. }
    rewrite K by assumption. now rewrite app_nil_r. }
  rewrite La. clear La.
  assert (C := counting_hists ys (rev xs)). rewrite <- snd_dd in C.
  assert (Hh : snd (hd (f0, 0) (dd (hists (rev xs) ys))) = hd 0 (map snd (dd (hists (rev xs) ys)))) by (destruct ys; easy).
  rewrite Hh. clear Hh. split.
  - intros [P1 P2].
    assert (E : details (map fst (dd (hists (rev xs) ys))) (map snd (dd (hists (rev xs) ys))) = Err EShape).
    { apply (details_inside _ _ P1 C). lia. }
    split; [exact E|]. unfold avg. now rewrite E.
  - intros D gs R.
    assert (E : details (map fst (dd (hists (rev xs) ys))) (map snd (dd (hists (rev xs) ys))) = Ok (map (fun g => (frmin (map fst g), Z.of_nat (length g))) gs)).
    { apply details_counting; auto. destruct D as [D|D]; [now rewrite D in C|]. now apply counting_restart in C. }
    split; [exact E|]. unfold avg. rewrite E. cbn [bind]. now rewrite !map_map.
Qed.
End Details.
Lemma no_period log32 xs : let N := B32 log32 in xs <> [] -> below31 (rev xs) ->
  exists out sf s0, call Drawdown (scalars xs) None true = Ok (drawdowns out, sf, s0) /\
    (Forall (fun x => snd x <= 0) out ->
     details (map fst out) (map snd out) = Ok [] /\
     exists a b, avg (map fst out) (map snd out) = Ok (a, b) /\ fisnan a = true /\ fisnan b = true).
Proof.
  intros N NE B. destruct (details_fresh xs NE B) as (out & sf & s0 & H & _ & D).
  exists out, sf, s0. split; [exact H|]. intros Z.
  assert (K : runs_of under out []).
  { constructor. eapply Forall_impl; [|exact Z]. intros x Hx. unfold under. apply Z.ltb_ge. exact Hx. }
  destruct (D [] K) as [E A]. split; [exact E|].
  exists (fmean []), (fmean []). split; [exact A|]. split; reflexivity.
Qed.
