(** * Streamable: tensorstream/streamable.py, with the control-flow operations of
    TensorFlow it relies on (tf.cond, tf.case, tf.while_loop, TensorArray). *)
From Coq Require Import List ZArith Bool.
From Verif Require Import Num Py Tensor.
Import ListNotations.

Section Streamable.
Context {N : FOps}.

Definition val := pyval tensor.
(** (outputs, next state, initial state) *)
Definition out3 : Type := (val * val * val)%type.

(** A scalar boolean tensor read as a predicate. *)
Definition as_pred (t : tensor) : res bool :=
  match sh t, dat t with
  | [], DB [b] => Ok b
  | [], DB _ => Err EShape
  | [], _ => Err EType
  | _, _ => Err EShape
  end.
Definition as_t (v : val) : res tensor :=
  match v with Leaf t => Ok t | _ => Err EType end.

(** streamable.py:17-21 to_type.  Python literals are scalar tensors in the
    model, so both branches of the conditional expression coincide. *)
Definition to_type (v : val) : res (pyval dtype) :=
  map_fn (fun l => match l with [Leaf t] => Ok (Leaf (dtype_of t)) | _ => Err EType end) v [v].

(** tf.cond with strict=False (TensorFlow 1.13.1, control_flow_ops.cond): both
    branches are built, must return the same nested structure of the same
    dtypes, and a one-element list or tuple is unpacked to its element. *)
Definition unpack_singleton (v : val) : val :=
  match v with Tup [x] | Lst [x] => x | _ => v end.
Definition nonempty_result (v : val) : bool :=
  match v with Tup [] | Lst [] => false | _ => true end.
(** An assertion (tf.case with exclusive=True, the only run-time check occurring
    inside a branch in this repository) only runs when its branch is taken, so
    [EAssert] in the other branch is ignored; every other error of the model is
    raised while the graph of the branch is built. *)
Definition run_branch (v : val) : res val :=
  if nonempty_result v then Ok (unpack_singleton (unpack_singleton v)) else Err EValue.
Definition tf_cond (pred : tensor) (true_fn false_fn : res val) : res val :=
  let* b := as_pred pred in
  match true_fn, false_fn with
  | Err EAssert, r => if b then Err EAssert else let* v := r in run_branch v
  | r, Err EAssert => if b then let* v := r in run_branch v else Err EAssert
  | Err e, _ => Err e
  | _, Err e => Err e
  | Ok t, Ok f =>
      if negb (nonempty_result t && nonempty_result f) then Err EValue else
      let t' := unpack_singleton t in
      let f' := unpack_singleton f in
      let* ty_t := to_type t' in
      let* ty_f := to_type f' in
      if pv_eqb dtype_eqb ty_t ty_f
      then Ok (unpack_singleton (if b then t' else f'))
      else Err EStructure
  end.

(** tf.case: nested tf.cond in list order; with exclusive=True, an assertion that
    at most one predicate holds. *)
Fixpoint tf_case_nested (cases : list (tensor * res val)) (default : res val) : res val :=
  match cases with
  | [] => default
  | (p, v) :: r => tf_cond p v (tf_case_nested r default)
  end.
Definition tf_case (cases : list (tensor * res val)) (default : res val) (exclusive : bool)
  : res val :=
  let* bs := mapM (fun pv => as_pred (fst pv)) cases in
  if exclusive && Nat.ltb 1 (length (filter (fun b => b) bs)) then Err EAssert
  else tf_case_nested cases default.

(** An operator object: a subclass of Streamable ([Plain], with its [step] taking
    positional arguments) or of MetaStreamable ([Meta]). *)
Inductive operator :=
| Plain (step : list val -> res out3)
| Meta (step : val -> option val -> res out3).

(** streamable.py:89-93: the default [step]. *)
Definition base_streamable : operator := Plain (fun _ => Err ENotImpl).

(** streamable.py:95-103 (Streamable.forward_step) and 117-122
    (MetaStreamable.forward_step). *)
Definition forward_step (op : operator) (inputs : val) (state : option val) : res out3 :=
  match op with
  | Plain step =>
      let ins := match inputs with Tup l | Lst l => l | _ => [inputs] end in
      let sts := match state with
                 | None => []
                 | Some (Tup l) | Some (Lst l) => l
                 | Some s => [s]
                 end in
      step (ins ++ sts)
  | Meta step => step inputs state
  end.

(** ** TensorArray: dtype and write-once cells. *)
Record tarray := mkTA { ta_dt : dtype; ta_cells : list (option tensor) }.

Fixpoint set_nth {A} (n : nat) (x : A) (l : list A) : list A :=
  match l, n with
  | [], _ => []
  | _ :: r, O => x :: r
  | y :: r, S k => y :: set_nth k x r
  end.
(* y.write(i, x) *)
Definition ta_write (i : nat) (x : tensor) (a : tarray) : res tarray :=
  if dtype_eqb (dtype_of x) (ta_dt a) then
    match nth_error (ta_cells a) i with
    | Some None => Ok (mkTA (ta_dt a) (set_nth i (Some x) (ta_cells a)))
    | _ => Err ETensorArray
    end
  else Err EType.
(* o.stack(): all cells must have been written.  Simplification: an array of size
   0 is an error (its element shape is unknown). *)
Definition ta_stack (a : tarray) : res tensor :=
  let* ts := mapM (fun c => match c with Some t => Ok t | None => Err ETensorArray end)
                  (ta_cells a) in
  tstack ts.

Definition tavals := pyval tarray.
(** Leaves of calls mixing tensors and TensorArrays. *)
Definition mixed := (tensor + tarray)%type.

(** streamable.py:68-69 *)
Definition ta_new_all (outputs_0 : val) (size : nat) : res tavals :=
  map_fn (fun l => match l with
                   | [Leaf t] => Ok (Leaf (mkTA (dtype_of t) (repeat None size)))
                   | _ => Err EType end) outputs_0 [outputs_0].
(** streamable.py:62 [map_fn(outputs_i, [outputs_i, loop_outputs], lambda x, y: y.write(i, x))],
    followed by the structure check of tf.while_loop on the returned loop variable. *)
Definition ta_write_all (i : nat) (outputs_i : val) (loop_outputs : tavals) : res tavals :=
  let* r := map_fn (fun l => match l with
       | [Leaf (inl x); Leaf (inr y)] => let* y' := ta_write i x y in Ok (Leaf y')
       | _ => Err EType end)
     (vmap (@inl tensor tarray) outputs_i)
     [vmap (@inl tensor tarray) outputs_i; vmap (@inr tensor tarray) loop_outputs] in
  if pv_eqb (fun _ _ => true) loop_outputs r then Ok r else Err EStructure.
(** streamable.py:75 *)
Definition ta_stack_all (outputs : tavals) : res val :=
  map_fn (fun l => match l with
                   | [Leaf a] => let* t := ta_stack a in Ok (Leaf t)
                   | _ => Err EType end) outputs [outputs].

(** streamable.py:9-15 check_types_equality(to_type(a), to_type(b)) *)
Definition check_types_equality (a b : pyval dtype) : res unit :=
  if pv_eqb dtype_eqb a b then Ok tt else Err EStateType.
(** streamable.py:63-64: [set_shape] of the next state to the (statically known)
    shape of the loop state raises when the shapes differ. *)
Definition check_shapes (loop_state next_state : val) : res unit :=
  let* _ := map_fn (fun l => match l with
       | [Leaf x; Leaf y] => if shape_eqb (sh x) (sh y) then Ok (Leaf tt) else Err EShape
       | _ => Err EType end) loop_state [loop_state; next_state] in
  Ok tt.

(** inputs[i]: streamable.py:38 (i = 0) and 49 *)
Definition slice_at (i : Z) (inputs : val) : res val :=
  map_fn (fun l => match l with
                   | [Leaf x] => let* y := index0 x i in Ok (Leaf y)
                   | _ => Err EType end) inputs [inputs].

(** tf.while_loop on explicit fuel; running out of fuel is an error. *)
Fixpoint tf_while {S} (fuel : nat) (cond : S -> bool) (body : S -> res S) (s : S) : res S :=
  if cond s then
    match fuel with
    | O => Err EFuel
    | Datatypes.S k => let* s' := body s in tf_while k cond body s'
    end
  else Ok s.

(** streamable.py:48-65: the loop body.  The loop counter is a [nat] (it never
    exceeds a tensor dimension, so int32 does not wrap). *)
Definition stream_body (op : operator) (inputs : val) (v : nat * val * tavals)
  : res (nat * val * tavals) :=
  let '(i, loop_state, loop_outputs) := v in
  let* inputs_i := slice_at (Z.of_nat i) inputs in
  let* (outputs_i, next_state, _) := forward_step op inputs_i (Some loop_state) in
  let* t1 := to_type loop_state in
  let* t2 := to_type next_state in
  let* _ := check_types_equality t1 t2 in
  let* new_outputs := ta_write_all i outputs_i loop_outputs in
  let* _ := check_shapes loop_state next_state in
  Ok (S i, next_state, new_outputs).

(** streamable.py:30-36: the sizes of the leaves and their equality check. *)
Definition input_size (inputs : val) : res nat :=
  let* sizes := mapM (fun x => let* t := as_t x in size0 t) (flatten inputs) in
  match sizes with
  | [] => Err EIndex
  | size :: _ => if forallb (Nat.eqb size) sizes then Ok size else Err ESizes
  end.

(** streamable.py:23-76 call_streamed. *)
Definition call_streamed (op : operator) (inputs : val) (provided_state : option val)
  : res out3 :=
  let* size := input_size inputs in
  let* inputs_0 := slice_at 0 inputs in
  let* (outputs_0, _, init) := forward_step op inputs_0 provided_state in
  let initial_state := match provided_state with Some s => s | None => init end in
  let* outputs := ta_new_all outputs_0 size in
  let* (_, state_f, outputs_f) :=
    tf_while size (fun v : nat * val * tavals => Nat.ltb (fst (fst v)) size)
             (stream_body op inputs) (O, initial_state, outputs) in
  let* outs := ta_stack_all outputs_f in
  Ok (outs, state_f, initial_state).

(** [map_fn(inputs, [inputs], lambda x: tf.convert_to_tensor(x))]: the identity on
    tensors; a generator cannot be converted. *)
Definition convert (v : val) : res val :=
  map_fn (fun l => match l with [Leaf t] => Ok (Leaf t) | _ => Err EType end) v [v].

(** streamable.py:78-87 __call__. *)
Definition call (op : operator) (inputs : val) (state : option val) (streamable : bool)
  : res out3 :=
  let* inputs := convert inputs in
  let* state := match state with
                | None => Ok None
                | Some s => let* s' := convert s in Ok (Some s')
                end in
  if streamable then call_streamed op inputs state
  else forward_step op inputs state.

(** ** Helpers to write [step] functions: positional arguments with defaults. *)
Definition arity (lo hi : nat) (args : list val) : res unit :=
  if Nat.leb lo (length args) && Nat.leb (length args) hi then Ok tt else Err EArity.
Definition targ (args : list val) (k : nat) : res tensor :=
  match nth_error args k with Some v => as_t v | None => Err EArity end.
Definition targ_or (args : list val) (k : nat) (default : res tensor) : res tensor :=
  match nth_error args k with Some v => as_t v | None => default end.
End Streamable.
