(** * WitnessHelpers: concrete cases for the helpers, the stateless operators and the automaton. *)
From Coq Require Import String List ZArith Bool Lia.
From Verif Require Import Num Py PyFacts Tensor Streamable WfFacts Spec Meta Common Finance B32 Series Formulas Positions
  ImplScalar ImplMarket Library GenuineBase SpecHelpers HelperFacts DetailsFacts AutomatonFacts Witness WitnessSeries.
Import ListNotations.

(** ** Drawdown periods *)
Definition h_prices : list F := map fz [10; 8; 9; 12; 6; 7]%Z.
Definition h_more : list F := map fz [5; 20; 4]%Z.
Definition h_pairs (v : val) : list (F * Z) :=
  match v with
  | Tup [Leaf a; Leaf b] => match dat a, dat b with DF l, DI m => combine l m | _, _ => [] end
  | _ => []
  end.
Definition h_run : out3 := Eval vm_compute in ok3 (call Drawdown (scalars h_prices) None true).
Definition h_run2 : out3 := Eval vm_compute in ok3 (call Drawdown (scalars h_more) (Some (snd (fst h_run))) true).
Definition h_out : list (F * Z) := Eval vm_compute in h_pairs (fst (fst h_run)).
Lemma h_call : call Drawdown (scalars h_prices) None true = Ok (drawdowns h_out, snd (fst h_run), snd h_run).
Proof. vm_cast_no_check (@eq_refl (res out3) (Ok (drawdowns h_out, snd (fst h_run), snd h_run))). Qed.
Lemma h_call2 : call Drawdown (scalars h_more) (Some (snd (fst h_run))) true = Ok (fst (fst h_run2), snd (fst h_run2), snd h_run2).
Proof. vm_cast_no_check (@eq_refl (res out3) (Ok (fst (fst h_run2), snd (fst h_run2), snd h_run2))). Qed.
Lemma h_runs : exists gs, runs_of under h_out gs /\ map (@length _) gs = [2; 2].
Proof. exists (split_runs under h_out). split; [apply split_runs_of|vm_compute; reflexivity]. Qed.

(** ** An automaton: 0 goes to 1 on a positive input, 1 to 0 on a negative one; the second transition
    from 1 is never reached *)
Definition h_above (args : list val) : res tensor :=
  match args with [Leaf t] => tgreater t (fsc f0) | _ => Err EArity end.
Definition h_below (args : list val) : res tensor :=
  match args with [Leaf t] => tless t (fsc f0) | _ => Err EArity end.
Definition h_give (z : Z) (args : list val) : res val := Ok (Leaf (isc z)).
Definition h_table : list transition :=
  [mkTr 0 1 h_above (h_give 1); mkTr 1 0 h_below (h_give (-1)); mkTr 1 7 h_below (h_give 5)].
Definition h_inputs : val := Tup [ser [1; -1; 0; 2; 3]%Z].
Lemma h_table_ok : Forall (fun t => user_guard (tr_guard t) /\ user_fn (tr_action t)) h_table.
Proof.
  assert (G1 : user_guard h_above).
  { intros [|[t|?|?|?|?] [|? ?]] r G H; try discriminate. eapply (wf_tcmp _ _ t (fsc f0)); [|apply wf_fsc|exact H].
    inversion G as [|? ? [_ W] _]; subst. now inversion W. }
  assert (G2 : user_guard h_below).
  { intros [|[t|?|?|?|?] [|? ?]] r G H; try discriminate. eapply (wf_tcmp _ _ t (fsc f0)); [|apply wf_fsc|exact H].
    inversion G as [|? ? [_ W] _]; subst. now inversion W. }
  assert (A : forall z, user_fn (h_give z)).
  { intros z args r _ H. injection H as <-. split; [exact I|]. repeat constructor. }
  unfold h_table. repeat (apply Forall_cons; [split; cbn [tr_guard tr_action]; auto|]). constructor.
Qed.
Lemma h_default_ok : user_fn (h_give 0).
Proof. intros args r _ H. injection H as <-. split; [exact I|]. repeat constructor. Qed.
Lemma h_inputs_series : is_series 5 h_inputs.
Proof. split; [discriminate|]. repeat constructor. exists []. reflexivity. Qed.

(** ** Nested values *)
Local Open Scope string_scope.
Definition h_nested : pyval nat := Dct [("a", Leaf 1); ("b", Tup [Leaf 2; Lst [Leaf 3; Leaf 4]])].
Lemma h_nested_ok : pyok h_nested.
Proof. vm_compute. repeat split; repeat constructor; cbn; intuition discriminate. Qed.
Definition h_floats : val := Tup [ser [1; 2]%Z; Dct [("x", ser [0; 3]%Z)]].
Definition h_auto : out3 := Eval vm_compute in ok3 (call (Automaton h_table 0 (h_give 0)) h_inputs None true).
Lemma h_auto_call : call (Automaton h_table 0 (h_give 0)) h_inputs None true = Ok (iser [1; -1; 0; 1; 0]%Z, snd (fst h_auto), snd h_auto).
Proof. vm_cast_no_check (@eq_refl (res out3) (Ok (iser [1; -1; 0; 1; 0]%Z, snd (fst h_auto), snd h_auto))). Qed.
Lemma h_floats_ok : genuine h_floats.
Proof. split; [cbn; repeat split; repeat constructor; cbn; intuition discriminate|repeat constructor]. Qed.
