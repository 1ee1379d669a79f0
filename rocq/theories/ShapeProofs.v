(** * ShapeProofs: well-shaped operators never fail. *)
From Coq Require Import String List ZArith Bool Lia.
From Verif Require Import Num Py PyFacts Tensor Streamable Spec SpecMeta StreamFacts TensorFacts StreamProofs
  WfFacts EvalFacts Meta Common Finance Library GenuineBase GenuineLib SpecHelpers HelperFacts FillFacts MapFacts
  Shapes ShapeFacts ShapeOps.
Import ListNotations.

Section ShapeProofs.
Context {N : FOps}.

Ltac f2 := apply vhas_tup; repeat (apply Forall2_cons; [first [assumption | apply vhas_leaf; first [assumption | apply has_isc]]|]); apply Forall2_nil.
Lemma takes_library op zs zo zst : takes op zs zo zst -> library op.
Proof. intros H. apply lib_basic. destruct H; constructor. Qed.
Lemma well_shaped_lib : (forall op zx zo zs, well_shaped op zx zo zs -> library op) /\
  (forall ops zxs zos zss, shaped_all ops zxs zos zss -> Forall library ops) /\
  (forall ops zx zo zss, shaped_chain ops zx zo zss -> Forall library ops).
Proof.
  apply well_shaped_mutual; intros; auto.
  - eapply takes_library; eauto.
  - apply lib_basic, lib_set_during. assumption.
  - now apply lib_map.
  - now apply lib_ffill.
  - now apply lib_join.
  - apply lib_compose. rewrite <- (rev_involutive ops). now apply Forall_rev.
Qed.
Lemma well_shaped_genuine op zx zo zs : well_shaped op zx zo zs -> genuine_op op.
Proof. intros H. apply library_genuine. eapply well_shaped_lib; eauto. Qed.

(** ** Functions *)
Lemma vhas_all vs zs : Forall2 vhas vs zs -> Forall genuine vs /\ map sig vs = zs.
Proof.
  induction 1 as [|v z vs zs [G E] _ [IH1 IH2]]; [auto|]. split; [auto|]. change (sig v :: map sig vs = z :: zs). now rewrite E, IH2.
Qed.
Lemma wp_fn fn zs zo args (Q : val -> Prop) : fn_shaped fn zs zo -> Forall2 vhas args zs -> (forall r, vhas r zo -> Q r) -> wp (fn args) Q.
Proof.
  intros H Ha K. destruct (vhas_all _ _ Ha) as [G E]. destruct (H args G E) as (r & Er & Gr & Sr). exists r. split; [exact Er|]. apply K. split; auto.
Qed.
Lemma stateless_safe fn zx zo : fn_shaped fn (parts zx) zo -> safe (make_streamable fn) zx zo (Tup []).
Proof.
  intros H. eapply plain_safe; [|reflexivity]. intros ins sts Hi Hs.
  assert (sts = []) as -> by (destruct Hs as [|Hs]; [auto|now inversion Hs]). rewrite app_nil_r. apply wp_bind.
  eapply wp_fn; [exact H|exact Hi|]. intros r Hr. apply wp_ok. cbn. auto using vhas_nil.
Qed.

(** ** SetDuring *)
Lemma wp_map_fn (g : list val -> res val) (f : list nat * dtype -> list nat * dtype) x z (Q : val -> Prop) :
  vhas x z -> (forall t, In t (leaves x) -> wf t -> wp (g [Leaf t]) (fun r => vhas r (Leaf (f (tsig t))))) ->
  (forall r, vhas r (vmap f z) -> Q r) -> wp (map_fn g x [x]) Q.
Proof.
  intros [[P W] E] H K. assert (E1 : map_fn g x [x] = vmapM (fun t => g [Leaf t]) x).
  { rewrite <- (vmap_id x) at 1 2. apply (map_fn_vmap g x P (fun a => a) [fun a => a]). }
  rewrite Forall_forall in W. set (k := fun t => match g [Leaf t] with Ok (Leaf r) => r | _ => t end).
  assert (Hk : forall t, In t (leaves x) -> g [Leaf t] = Ok (Leaf (k t)) /\ wf (k t) /\ tsig (k t) = f (tsig t)).
  { intros t Ht. destruct (H t Ht (W t Ht)) as (r & Er & Hr). destruct (f (tsig t)) as [s d] eqn:Ef.
    destruct (vhas_leaf_inv _ _ _ Hr) as (t' & -> & W' & S' & D'). unfold k. rewrite Er. repeat split; auto.
    unfold tsig. now rewrite S', D'. }
  assert (E2 : map_fn g x [x] = Ok (vmap k x)).
  { rewrite E1. rewrite (vmapM_ext _ (fun i => let* y := Ok (k i) in Ok (Leaf y))).
    - apply (vmapM_ok (fun i => Ok (k i)) k); auto.
    - intros t Ht. cbn [bind]. now apply Hk. }
  rewrite E2. apply wp_ok, K. split.
  - split; [now apply pyok_vmap|]. rewrite leaves_vmap, Forall_map, Forall_forall. intros t Ht. now apply Hk.
  - unfold sig. rewrite vmap_vmap, <- E. unfold sig. rewrite vmap_vmap. apply vmap_ext. intros t Ht. now apply Hk.
Qed.
Lemma set_during_safe v p zx d : tsig v = ([], d) -> wf v -> Forall (fun z => snd z = d) (leaves zx) ->
  safe (SetDuring v p) zx zx (Tup [int]).
Proof.
  intros Ev Wv Hz x st Hx Hs. assert (Hv : has v [] d) by (injection Ev as E1 E2; split; auto).
  assert (K : forall it, has it [] I32 -> wp (set_during_step v p x (Some (Tup [Leaf it])))
    (fun r => vhas (fst (fst r)) zx /\ vhas (snd (fst r)) (Tup [int]) /\ vhas (snd r) (Tup [int]))).
  { intros it Hi. unfold set_during_step. cbn [item nth_error bind as_t]. apply wp_bind. eapply wp_pyint; [exact Hi|discriminate|].
    intros pp Hp. apply wp_bind. eapply wp_map_fn with (f := fun z => z); [exact Hx| |].
    - intros t Ht Wt. apply wp_bind. eapply wp_tcmp; [exact Hi|exact Hp|constructor|discriminate|]. intros c Hc.
      assert (Dt : dtype_of t = d).
      { destruct Hx as [_ Ex]. rewrite <- Ex in Hz. unfold sig in Hz. rewrite leaves_vmap, Forall_map, Forall_forall in Hz. exact (Hz t Ht). }
      eapply wp_cond; [exact Hc|apply (plural_leaf (tsig t))| | |auto].
      + apply wp_bind. eapply wp_fill; [exact Hv|]. intros r Hr. apply wp_ok. unfold tsig. rewrite Dt. now apply vhas_leaf.
      + apply wp_ok. apply vhas_leaf. split; [exact Wt|]. split; reflexivity.
    - intros r Hr. rewrite vmap_id in Hr. apply wp_bind. eapply wp_pyint; [exact Hi|discriminate|]. intros o Ho. apply wp_bind.
      eapply wp_tbin; [exact Hi|exact Ho|constructor|right; split; [reflexivity|discriminate]|]. intros nx Hn. apply wp_ok. cbn [fst snd].
      split; [exact Hr|]. split; f2. }
  destruct st as [s|]; [|exact (K (isc 0) (has_isc 0))].
  destruct (vhas_tup_inv s _ Hs) as (vs & -> & Hv'). inversion Hv' as [|it ? ? ? Hit Hr]; subst. inversion Hr; subst.
  destruct (vhas_leaf_inv _ _ _ Hit) as (t & -> & Ht). apply K, Ht.
Qed.

(** ** Automaton *)
Lemma automaton_safe trs i d zs zx zo :
  zx = Tup zs \/ zx = Lst zs -> Forall (fun t => guard_shaped (tr_guard t) zs /\ fn_shaped (tr_action t) zs zo) trs ->
  fn_shaped d zs zo -> safe (Automaton trs i d) zx zo int.
Proof.
  intros Hz Ht Hd x st Hx Hs.
  assert (X : exists ins, iter x = Ok ins /\ Forall2 vhas ins zs).
  { destruct Hz as [->| ->]; [apply vhas_tup_inv in Hx|apply vhas_lst_inv in Hx]; destruct Hx as (vs & -> & Hv); exists vs; (split; [reflexivity|exact Hv]). }
  destruct X as (ins & Ei & Hi).
  cbn [forward_step Automaton]. unfold automaton_step. apply wp_bind.
  assert (X : wp (match st with None => Ok (isc i) | Some s => as_t s end) (fun t => has t [] I32)).
  { destruct st as [s|]; [|apply wp_ok, has_isc]. eapply wp_as_t; [exact Hs|auto]. }
  eapply wp_impl; [exact X|]. intros ps Hps. clear X. rewrite Ei. cbn [bind]. apply wp_bind.
  assert (X : wp (mapM (fun t =>
      let* from := pyint_like ps (tr_from t) in
      let* e := tequal ps from in
      let* g := tr_guard t ins in
      let* cond := tlogical_and e g in
      let* output := tr_action t ins in
      Ok (cond, Ok (Tup [output; Leaf (isc (tr_to t))]))) trs)
    (Forall (fun c => has (fst c) [] BOOL /\ wp (snd c) (fun v => vhas v (Tup [zo; int]))))).
  { induction Ht as [|t trs [Hg Ha] _ IH]; cbn [mapM]; [now apply wp_ok|]. apply wp_bind.
    apply wp_bind. eapply wp_pyint; [exact Hps|discriminate|]. intros from Hf. apply wp_bind.
    eapply wp_tcmp; [exact Hps|exact Hf|constructor|discriminate|]. intros e He. apply wp_bind.
    destruct (vhas_all _ _ Hi) as [Gi Si]. destruct (Hg ins Gi Si) as (b & Eb). rewrite Eb. apply wp_ok. apply wp_bind.
    eapply wp_tbool2; [exact He|apply has_bsc|constructor|]. intros c Hc. apply wp_bind.
    eapply wp_fn; [exact Ha|exact Hi|]. intros o Ho. apply wp_ok. apply wp_bind. eapply wp_impl; [exact IH|].
    intros cs Hcs. apply wp_ok. constructor; [|exact Hcs]. cbn [fst snd]. split; [exact Hc|]. apply wp_ok.
    f2. }
  eapply wp_impl; [exact X|]. intros cs Hcs. apply wp_bind. eapply wp_fn; [exact Hd|exact Hi|]. intros dv Hdv. apply wp_bind.
  eapply wp_case; [apply (plural_pair zo int [])|exact Hcs| |].
  - apply wp_ok. f2.
  - intros r Hr. apply wp_bind. eapply wp_item; [exact Hr|reflexivity|]. intros a Ha. apply wp_bind.
    eapply wp_item; [exact Hr|reflexivity|]. intros n Hn. apply wp_ok. cbn [fst snd]. split; [exact Ha|]. split; [exact Hn|]. now apply vhas_leaf.
Qed.

(** ** Join and Compose *)
Definition safe_all (ops : list operator) (zxs zos zss : list ztype) : Prop :=
  length ops = length zss /\ forall xs sts, Forall2 vhas xs zxs -> Forall2 state_shaped sts zss ->
    wp (join_loop (combine ops (combine xs sts)))
      (fun r => Forall2 vhas (fst (fst r)) zos /\ Forall2 vhas (snd (fst r)) zss /\ Forall2 vhas (snd r) zss).
Definition safe_chain (ops : list operator) (zx zo : ztype) (zss : list ztype) : Prop :=
  length ops = length zss /\ forall x sts o0, vhas x zx -> Forall2 state_shaped sts zss ->
    wp (compose_loop (combine ops sts) x o0)
      (fun r => (exists o, fst (fst r) = Some o /\ vhas o zo) /\ Forall2 vhas (snd (fst r)) zss /\ Forall2 vhas (snd r) zss).
Lemma given_states st zss n : n = length zss -> state_shaped st (Tup zss) ->
  wp (match st with None => Ok (repeat None n) | Some s => let* l := iter s in Ok (map Some l) end)
     (fun sts => Forall2 state_shaped sts zss).
Proof.
  intros -> H. destruct st as [s|].
  - destruct (vhas_tup_inv s _ H) as (vs & -> & Hv). cbn [iter bind]. apply wp_ok. clear H. induction Hv; constructor; auto.
  - apply wp_ok. clear H. induction zss; constructor; auto. exact I.
Qed.
Lemma join_safe ops zx zxs zos zss : zx = Tup zxs \/ zx = Lst zxs -> safe_all ops zxs zos zss -> safe (Join ops) zx (Tup zos) (Tup zss).
Proof.
  intros Hz [L H] x st Hx Hs. cbn [forward_step Join]. unfold join_step. apply wp_bind.
  eapply wp_impl; [apply given_states; [exact L|exact Hs]|]. intros sts Hst.
  assert (X : exists ins, iter x = Ok ins /\ Forall2 vhas ins zxs).
  { destruct Hz as [->| ->]; [apply vhas_tup_inv in Hx|apply vhas_lst_inv in Hx]; destruct Hx as (vs & -> & Hv); exists vs; (split; [reflexivity|exact Hv]). }
  destruct X as (ins & -> & Hi). cbn [bind]. apply wp_bind. eapply wp_impl; [apply H; eauto|].
  intros [[os ss] is] (K1 & K2 & K3). apply wp_ok. cbn [fst snd] in *. auto using vhas_tup.
Qed.
Lemma compose_safe ops zx zo zss : safe_chain (rev ops) zx zo zss -> safe (Compose ops) zx zo (Tup zss).
Proof.
  intros [L H] x st Hx Hs. cbn [forward_step Compose]. unfold compose_step. apply wp_bind.
  eapply wp_impl; [apply given_states; [exact L|exact Hs]|]. intros sts Hst. apply wp_bind.
  eapply wp_impl; [apply H; eauto|]. intros [[o ss] is] ((o' & E & H1) & H2 & H3). cbn [fst snd] in *. subst o. apply wp_ok. cbn [fst snd]. auto using vhas_tup.
Qed.
Lemma all_nil : safe_all [] [] [] [].
Proof. split; [reflexivity|]. intros xs sts _ _. apply wp_ok. cbn. auto. Qed.
Lemma all_cons op ops zx zxs zo zos zs zss : safe op zx zo zs -> safe_all ops zxs zos zss ->
  safe_all (op :: ops) (zx :: zxs) (zo :: zos) (zs :: zss).
Proof.
  intros H [L Ha]. split; [cbn; now f_equal|]. intros xs sts Hx Hs. inversion Hx; subst. inversion Hs; subst.
  cbn [combine join_loop]. apply wp_bind. eapply wp_call; [exact H|eassumption|eassumption|]. intros o s i Ho Hs' Hi. apply wp_bind.
  eapply wp_impl; [apply Ha; eauto|]. intros [[os ss] is] (K1 & K2 & K3). apply wp_ok. cbn [fst snd] in *. auto.
Qed.
Lemma chain_one op zx zo zs : safe op zx zo zs -> safe_chain [op] zx zo [zs].
Proof.
  intros H. split; [reflexivity|]. intros x sts o0 Hx Hs. inversion Hs as [|st ? l ? Hst Hl]; subst. inversion Hl; subst.
  cbn [combine compose_loop]. apply wp_bind. eapply wp_call; [exact H|eassumption|eassumption|]. intros o s i Ho Hs' Hi.
  apply wp_ok. cbn [fst snd]. split; [eauto|]. auto.
Qed.
Lemma chain_cons op ops zx zm zo zs zss : safe op zx zm zs -> safe_chain ops zm zo zss -> safe_chain (op :: ops) zx zo (zs :: zss).
Proof.
  intros H [L Hc]. split; [cbn; now f_equal|]. intros x sts o0 Hx Hs. inversion Hs as [|st ? l ? Hst Hl]; subst.
  cbn [combine compose_loop]. apply wp_bind. eapply wp_call; [exact H|eassumption|eassumption|]. intros o s i Ho Hs' Hi. apply wp_bind.
  eapply wp_impl; [apply Hc; eauto|]. intros [[o' ss] is] (H1 & H2 & H3). apply wp_ok. cbn [fst snd] in *. auto.
Qed.

(** ** Forward fill *)
Lemma ffill_safe op zx zo zs : Forall (fun z => snd z = F32) (leaves zx) -> plural zo -> plural zs \/ zs = Tup [] ->
  safe op zx zo zs -> safe (FFill op) zx zo (Tup [zo; zs]).
Proof.
  intros Hf Ho Hz H x st Hx Hs. cbn [forward_step FFill]. unfold ffill_step. apply wp_bind.
  assert (A : all_floats x).
  { destruct Hx as [_ Ex]. rewrite <- Ex in Hf. unfold sig in Hf. rewrite leaves_vmap, Forall_map in Hf.
    unfold all_floats. exact Hf. }
  exists (bsc (missing x)). split; [apply any_zero; [apply Hx|auto]|]. apply wp_bind.
  assert (X : wp (match st with
    | None => Ok (None, None)
    | Some s => let* po := item s 0 in let* ps := item s 1 in Ok (Some po, Some ps) end)
    (fun r => state_shaped (fst r) zo /\ state_shaped (snd r) zs)).
  { destruct st as [s|]; [|apply wp_ok; split; exact I]. apply wp_bind. eapply wp_item; [exact Hs|reflexivity|]. intros a Ha.
    apply wp_bind. eapply wp_item; [exact Hs|reflexivity|]. intros b Hb. apply wp_ok. split; assumption. }
  eapply wp_impl; [exact X|]. intros [po ps] [Hpo Hps]. cbn [fst snd] in *. apply wp_bind.
  eapply wp_call; [exact H|exact Hx|exact Hps|]. intros o s i Hvo Hvs Hvi. apply wp_bind.
  assert (Y : wp (match po with
    | Some po => Ok po
    | None => map_fn (fun l => match l with [Leaf p] => Ok (Leaf (zeros_like p)) | _ => Err EType end) o [o] end) (fun v => vhas v zo)).
  { destruct po as [po|]; [now apply wp_ok|]. eapply wp_map_fn with (f := fun z => z); [exact Hvo| |].
    - intros t _ _. apply wp_ok. apply vhas_leaf. apply has_zeros.
    - intros r Hr. now rewrite vmap_id in Hr. }
  eapply wp_impl; [exact Y|]. intros v Hv. apply wp_bind. eapply wp_cond; [apply has_bsc|exact Ho|now apply wp_ok|now apply wp_ok|].
  intros so Hso. apply wp_bind.
  assert (Z : wp (if is_unit_tuple i then Ok (Tup []) else
     tf_cond (bsc (missing x)) (Ok (match ps with None => i | Some s => s end)) (Ok s)) (fun v => vhas v zs)).
  { assert (Hps' : vhas (match ps with None => i | Some s => s end) zs) by (destruct ps; [exact Hps|exact Hvi]).
    destruct Hz as [Hz| ->].
    - replace (is_unit_tuple i) with false.
      + eapply wp_cond; [apply has_bsc|exact Hz|now apply wp_ok|now apply wp_ok|auto].
      + destruct Hvi as [_ E]. destruct Hz as [_ Hz]. destruct i as [?|[|? ?]|?|?|?]; try reflexivity. rewrite <- E in Hz. cbn in Hz. contradiction.
    - destruct (vhas_tup_inv _ _ Hvi) as (vs & -> & Hv'). inversion Hv'. apply wp_ok, vhas_nil. }
  eapply wp_impl; [exact Z|]. intros s' Hs'. apply wp_ok. cbn [fst snd]. split; [exact Hso|]. split; apply vhas_tup; auto.
Qed.

(** ** Map *)
Lemma wide_row n z : vmap (fun p : list nat * dtype => (tl (fst p), snd p)) (wide n z) = z.
Proof. unfold wide. rewrite vmap_vmap. rewrite <- (vmap_id z) at 2. apply vmap_ext. now intros [a b] _. Qed.
Lemma wide_tall n v z : vhas v (wide n z) -> m_tall n v.
Proof.
  intros [_ E]. unfold m_tall. assert (H : Forall (fun p => exists s, fst p = n :: s) (leaves (sig v))).
  { rewrite E. unfold wide. rewrite leaves_vmap, Forall_map. apply Forall_forall. intros p _. eexists. reflexivity. }
  unfold sig in H. rewrite leaves_vmap, Forall_map in H. exact H.
Qed.
Lemma wide_series n v z : leaves z <> [] -> vhas v (wide n z) -> is_series n v.
Proof.
  intros NE H. split; [|exact (wide_tall _ _ _ H)]. destruct H as [_ E]. intros E0. apply NE.
  assert (E1 : leaves (sig v) = []) by (unfold sig; rewrite leaves_vmap, E0; reflexivity).
  rewrite E in E1. unfold wide in E1. rewrite leaves_vmap in E1. now apply map_eq_nil in E1.
Qed.
Lemma row_vhas n v z j : vhas v (wide n z) -> j < n -> vhas (row j v) z.
Proof.
  intros H Hj. split; [apply (genuine_row_tall n); auto; [apply H|exact (wide_tall _ _ _ H)]|].
  rewrite sig_row. destruct H as [_ ->]. apply wide_row.
Qed.
Lemma vhas_tile n v z : vhas v z -> vhas (vmap (tile0 n) v) (wide n z).
Proof.
  intros [G E]. split; [now apply genuine_tile|]. unfold sig, wide. rewrite <- E. unfold sig. rewrite !vmap_vmap. apply vmap_ext.
  intros [s [l|l|l]] _; reflexivity.
Qed.
Lemma sk_sig (v : val) z : sig v = z -> sk v = sk z. Proof. intros <-. symmetry. apply sk_vmap. Qed.
Lemma map_safe op n zx zo zs : genuine_op op -> n >= 1 -> leaves zx <> [] -> safe op zx zo zs ->
  safe (Map op n) (wide n zx) (wide n zo) (Tup [wide n zs]).
Proof.
  intros Gop Hn NE H x st Hx Hs. assert (Sx := wide_series n x zx NE Hx).
  destruct (H (row 0 x) None) as ([[o0 t0] i0] & H0 & Ho0 & Ht0 & Hi0); [apply (row_vhas n); auto; lia|exact I|]. cbn [fst snd] in *.
  assert (K : forall s, vhas s (wide n zs) -> wp (forward_step (Map op n) x (Some (Tup [s])))
    (fun r => vhas (fst (fst r)) (wide n zo) /\ vhas (snd (fst r)) (Tup [wide n zs]) /\ vhas (snd r) (Tup [wide n zs]))).
  { intros s Hv. assert (Q : forall j, j < n -> exists o s' i, forward_step op (row j x) (Some (row j s)) = Ok (o, s', i) /\ vhas o zo /\ vhas s' zs).
    { intros j Hj. destruct (H (row j x) (Some (row j s))) as ([[o s'] i] & E & E1 & E2 & _); [now apply (row_vhas n)|now apply (row_vhas n)|]. eauto 8. }
    assert (KR : kept_rows op x s n (sk zo)).
    { intros j o s' i _ Hj E. destruct (Q j Hj) as (o' & s1 & i' & E' & [_ H1] & [_ H2]). rewrite E' in E. injection E as <- <- <-.
      split; [|now apply sk_sig]. rewrite (sk_sig s1 zs H2). destruct Hv as [_ Hv]. rewrite (sk_sig s _ Hv). unfold wide. now rewrite sk_vmap. }
    destruct (map_ok' op n n zo Gop (Nat.lt_le_trans _ _ _ Nat.lt_0_1 Hn) x s) as (o & ns & i & Hf & Go & Gns & So & Sns & _); auto.
    { apply Hx. } { apply Hv. } { exact (wide_tall _ _ _ Hv). }
    { exists o0, t0, i0. split; [exact H0|apply Ho0]. }
    { intros j Hj. destruct (Q j Hj) as (o & s' & i & E & [_ H1] & [_ H2]). exists o, s', i. split; [exact E|]. split; [exact H1|].
      rewrite H2. symmetry. now apply (row_vhas n). }
    assert (i = Tup [s]) as ->.
    { apply (map_once' op n n (sk zo) Gop) in Hf; auto; [tauto|apply Hx|apply Hv|].
      intros o' t' i' E. rewrite H0 in E. injection E as <- <- <-. apply sk_sig, Ho0. }
    eexists. split; [exact Hf|]. cbn [fst snd]. split; [split; auto|]. destruct Hv as [Gv Ev].
    split; apply vhas_tup; (apply Forall2_cons; [split; auto; congruence|apply Forall2_nil]). }
  destruct st as [s|].
  - destruct (vhas_tup_inv s _ Hs) as (vs & -> & Hv). inversion Hv as [|a ? ? ? Ha Hr]; subst. inversion Hr; subst. now apply K.
  - rewrite (map_fresh op n x o0 t0 i0 n); auto; [|apply Hx]. apply K. now apply vhas_tile.
Qed.

(** ** All of them *)
Theorem well_shaped_safe : (forall op zx zo zs, well_shaped op zx zo zs -> safe op zx zo zs) /\
  (forall ops zxs zos zss, shaped_all ops zxs zos zss -> safe_all ops zxs zos zss) /\
  (forall ops zx zo zss, shaped_chain ops zx zo zss -> safe_chain ops zx zo zss).
Proof.
  apply well_shaped_mutual; intros.
  - eapply takes_safe; eauto.
  - now apply stateless_safe.
  - eapply set_during_safe; eauto.
  - eapply automaton_safe; eauto.
  - apply map_safe; auto. eapply well_shaped_genuine; eauto.
  - now apply ffill_safe.
  - eapply join_safe; eauto.
  - now apply compose_safe.
  - exact all_nil.
  - now apply all_cons.
  - now apply chain_one.
  - eapply chain_cons; eauto.
Qed.
End ShapeProofs.
