(** * Meta: tensorstream/meta/*.py, common/make_streamable.py,
    helpers/any_value.py and helpers/any_nan.py. *)
From Coq Require Import List ZArith Bool.
From Verif Require Import Num Py Tensor Streamable.
Import ListNotations.

Section Meta.
Context {N : FOps}.

(** ** meta/compose.py *)
(** compose.py:12-22: the loop; [output] is unbound before the first iteration. *)
Fixpoint compose_loop (op_states : list (operator * option val)) (op_inputs : val)
         (output : option val) : res (option val * list val * list val) :=
  match op_states with
  | [] => Ok (output, [], [])
  | (op, state) :: r =>
      let* (out, next_state, initial_state) := call op op_inputs state false in
      let* (o, nexts, inits) := compose_loop r out (Some out) in
      Ok (o, next_state :: nexts, initial_state :: inits)
  end.
(** compose.py:8-24; [operators] is the already reversed tuple of line 6. *)
Definition compose_step (operators : list operator) (inputs : val) (states : option val)
  : res out3 :=
  let* states_l := match states with
                   | None => Ok (repeat None (length operators))
                   | Some s => let* l := iter s in Ok (map Some l)
                   end in
  let* (o, nexts, inits) := compose_loop (combine operators states_l) inputs None in
  match o with
  | None => Err EUnbound
  | Some output => Ok (output, Tup nexts, Tup inits)
  end.
(** compose.py:4-6 *)
Definition Compose (operators : list operator) : operator := Meta (compose_step (rev operators)).

(** ** meta/join.py *)
(** join.py:15-21 *)
Fixpoint join_loop (l : list (operator * (val * option val)))
  : res (list val * list val * list val) :=
  match l with
  | [] => Ok ([], [], [])
  | (op, (inputs_, state)) :: r =>
      let* (output, next_state, initial_state) := call op inputs_ state false in
      let* (outs, nexts, inits) := join_loop r in
      Ok (output :: outs, next_state :: nexts, initial_state :: inits)
  end.
(** join.py:8-22 *)
Definition join_step (operators : list operator) (inputs : val) (states : option val)
  : res out3 :=
  let* states_l := match states with
                   | None => Ok (repeat None (length operators))
                   | Some s => let* l := iter s in Ok (map Some l)
                   end in
  let* ins := iter inputs in
  let* (outs, nexts, inits) := join_loop (combine operators (combine ins states_l)) in
  Ok (Tup outs, Tup nexts, Tup inits).
(** join.py:4-6 *)
Definition Join (operators : list operator) : operator := Meta (join_step operators).

(** meta/factory.py:4-6 *)
Definition Factory {A} (operator_clazz : A -> operator) (operators_args : list A) : operator :=
  Join (map operator_clazz operators_args).

(** ** meta/map.py *)
(** [states[0]] (map.py:27, set_during.py:19, ffill.py:22): element of a sequence,
    or slice of a tensor. *)
Definition item (v : val) (k : nat) : res val :=
  match v with
  | Tup l | Lst l => match nth_error l k with Some x => Ok x | None => Err EIndex end
  | Leaf t => let* x := index0 t (Z.of_nat k) in Ok (Leaf x)
  | Dct _ => Err EKey
  | Gen _ => Err EType
  end.
(** nest.assert_same_structure (TensorFlow 1.13.1), as called by tf.map_fn. *)
Definition assert_same_structure (a b : val) : res unit :=
  if pv_eqb (fun _ _ => true) a b then Ok tt else Err EStructure.
(** tf.map_fn(apply_op, (inputs, prev_state), dtype=(output_dtype, state_dtype)),
    map.py:40-44: a while loop over axis 0 with one TensorArray per leaf of the
    dtype structure, which is that of (op_value, prev_state) (map.py:29-30); what
    apply_op returns must have this structure. *)
Definition map_body (op : operator) (inputs prev_state op_value : val)
           (v : nat * tavals * tavals) : res (nat * tavals * tavals) :=
  let '(i, outs, nexts) := v in
  let* in_i := slice_at (Z.of_nat i) inputs in
  let* st_i := slice_at (Z.of_nat i) prev_state in
  let* (o, s, _) := call op in_i (Some st_i) false in
  let* _ := assert_same_structure op_value o in
  let* _ := assert_same_structure prev_state s in
  let* outs' := ta_write_all i o outs in
  let* nexts' := ta_write_all i s nexts in
  Ok (S i, outs', nexts').
Definition tf_map_fn (op : operator) (inputs prev_state op_value : val) : res (val * val) :=
  let* n := input_size (Tup [inputs; prev_state]) in
  let* outs := ta_new_all op_value n in
  let* nexts := ta_new_all prev_state n in
  let* (_, outs_f, nexts_f) :=
    tf_while n (fun v : nat * tavals * tavals => Nat.ltb (fst (fst v)) n)
             (map_body op inputs prev_state op_value) (O, outs, nexts) in
  let* o := ta_stack_all outs_f in
  let* s := ta_stack_all nexts_f in
  Ok (o, s).
(** map.py:12-45 *)
Definition map_step (op : operator) (size : nat) (inputs : val) (states : option val)
  : res out3 :=
  let* inputs_0 := slice_at 0 inputs in
  let* (op_value, _, init_state) := call op inputs_0 None false in
  let* states := match states with
    | Some s => Ok s
    | None =>
        let* ext := map_fn (fun l => match l with
                      | [Leaf x] => Ok (Leaf (tile0 size x))
                      | _ => Err EType end) init_state [init_state] in
        Ok (Tup [ext])
    end in
  let* prev_state := item states 0 in
  let* (outputs, next_state) := tf_map_fn op inputs prev_state op_value in
  Ok (outputs, Tup [next_state], Tup [prev_state]).
(** map.py:7-10.  [size] is a nonnegative Python int. *)
Definition Map (op : operator) (size : nat) : operator := Meta (map_step op size).

(** ** helpers *)
(** any_value.py:7-10.  [value] is a Python float, so tf.fill yields float32. *)
Definition tensor_has_value (value : F) (t : tensor) : res tensor :=
  let* u := fill (sh t) (fsc value) in
  let* e := tequal t u in
  treduce_any e.
(** any_nan.py:7-11 *)
Definition tensor_has_nan (t : tensor) : res tensor :=
  let* e := tis_nan t in treduce_any e.
(** any_value.py:12-25 and any_nan.py:13-27 share the fold. *)
Fixpoint reduce_or (acc : tensor) (l : list val) : res tensor :=
  match l with
  | [] => Ok acc
  | x :: r =>
      let* t := as_t x in
      let* a := tlogical_or acc t in
      reduce_or a r
  end.
Definition any_leaf (f : tensor -> res tensor) (inputs : val) : res tensor :=
  let* m := map_fn (fun l => match l with
                    | [Leaf x] => let* y := f x in Ok (Leaf y)
                    | _ => Err EType end) inputs [inputs] in
  reduce_or (bsc false) (flatten m).
Definition any_value (inputs : val) (value : F) : res tensor :=
  any_leaf (tensor_has_value value) inputs.
Definition any_nan (inputs : val) : res tensor := any_leaf tensor_has_nan inputs.

(** ** meta/ffill.py *)
(** [init_state == ()] *)
Definition is_unit_tuple (v : val) : bool := match v with Tup [] => true | _ => false end.
(** ffill.py:15-56 *)
Definition ffill_step (op : operator) (inputs : val) (states : option val) : res out3 :=
  let* inputs_any_zero := any_value inputs f0 in
  let* (prev_output, prev_state) := match states with
    | None => Ok (None, None)
    | Some s => let* po := item s 0 in let* ps := item s 1 in Ok (Some po, Some ps)
    end in
  let* (outputs, next_state, init_state) := call op inputs prev_state false in
  let prev_state := match prev_state with None => init_state | Some s => s end in
  let* prev_output := match prev_output with
    | Some po => Ok po
    | None => map_fn (fun l => match l with
                      | [Leaf p] => Ok (Leaf (zeros_like p))
                      | _ => Err EType end) outputs [outputs]
    end in
  let* selected_outputs := tf_cond inputs_any_zero (Ok prev_output) (Ok outputs) in
  let* selected_next_state :=
    if is_unit_tuple init_state then Ok (Tup [])
    else tf_cond inputs_any_zero (Ok prev_state) (Ok next_state) in
  Ok (selected_outputs, Tup [selected_outputs; selected_next_state],
      Tup [prev_output; init_state]).
Definition FFill (op : operator) : operator := Meta (ffill_step op).

(** ** common/make_streamable.py:4-14 *)
Definition make_streamable (fn : list val -> res val) : operator :=
  Plain (fun inputs => let* output := fn inputs in Ok (output, Tup [], Tup [])).
End Meta.
