(** * WitnessFill: concrete cases for Map, FFill and the structures. *)
From Coq Require Import List ZArith Bool Lia.
From Verif Require Import Num Py PyFacts Tensor Streamable Spec SpecMeta SpecHelpers Meta Common Finance B32 Library GenuineBase
  GenuineLib Structure StructLib StructProofs Witness WitnessMeta.
Import ListNotations.

(** Three elements of two columns. *)
Definition c_rows : val := mser 2 [[1; 2]; [3; 5]; [8; 4]]%Z.
Definition c_left : val := ser [1; 3; 8]%Z.
Definition c_right : val := ser [2; 5; 4]%Z.
Lemma c_columns : has_columns 3 2 c_rows.
Proof. split; (split; [discriminate|]); repeat constructor; eexists; reflexivity. Qed.
Lemma c_is_left : is_column 3 0 c_rows c_left.
Proof.
  split; [gen|]. split; [split; [discriminate|]; repeat constructor; eexists; reflexivity|].
  intros [|[|[|i]]] Hi; [reflexivity..|lia].
Qed.
Lemma c_is_right : is_column 3 1 c_rows c_right.
Proof.
  split; [gen|]. split; [split; [discriminate|]; repeat constructor; eexists; reflexivity|].
  intros [|[|[|i]]] Hi; [reflexivity..|lia].
Qed.
Definition c_op : operator := SimpleMovingAverage 2.
Lemma c_typed (v : val) : sk v = one -> typed c_op (sk v) one z_sma.
Proof. intros ->. eapply ty_step; [apply sg_sma|reflexivity]. Qed.
Definition c_run : out3 := Eval vm_compute in ok3 (call (Map c_op 2) c_rows None true).
Lemma c_call : call (Map c_op 2) c_rows None true = Ok (fst (fst c_run), snd (fst c_run), snd c_run).
Proof. vm_cast_no_check (@eq_refl (res out3) (Ok (fst (fst c_run), snd (fst c_run), snd c_run))). Qed.
(** The states left, one row for each column; the stream goes on from them. *)
Definition c_state : val := Eval vm_compute in match snd (fst c_run) with Tup [s] => s | _ => Tup [] end.
Definition c_run2 : out3 := Eval vm_compute in ok3 (call (Map c_op 2) c_rows (Some (Tup [c_state])) true).
Lemma c_call2 : call (Map c_op 2) c_rows (Some (Tup [c_state])) true = Ok (fst (fst c_run2), snd (fst c_run2), snd c_run2).
Proof. vm_cast_no_check (@eq_refl (res out3) (Ok (fst (fst c_run2), snd (fst c_run2), snd c_run2))). Qed.
Definition c_first : out3 := Eval vm_compute in ok3 (call c_op (row 0 (row 0 c_rows)) None false).
Lemma c_first0 : call c_op (row 0 (row 0 c_rows)) None false = Ok (fst (fst c_first), snd (fst c_first), snd c_first).
Proof. vm_cast_no_check (@eq_refl (res out3) (Ok (fst (fst c_first), snd (fst c_first), snd c_first))). Qed.
Definition c_second : out3 := Eval vm_compute in ok3 (call c_op (row 1 (row 0 c_rows)) None false).
Lemma c_first1 : call c_op (row 1 (row 0 c_rows)) None false = Ok (fst (fst c_second), snd (fst c_second), snd c_first).
Proof. vm_cast_no_check (@eq_refl (res out3) (Ok (fst (fst c_second), snd (fst c_second), snd c_first))). Qed.
Definition c_col0 : out3 := Eval vm_compute in ok3 (call c_op c_left (Some (row 0 c_state)) true).
Lemma c_col0_call : call c_op c_left (Some (row 0 c_state)) true = Ok (fst (fst c_col0), snd (fst c_col0), row 0 c_state).
Proof. vm_cast_no_check (@eq_refl (res out3) (Ok (fst (fst c_col0), snd (fst c_col0), row 0 c_state))). Qed.
Definition c_col1 : out3 := Eval vm_compute in ok3 (call c_op c_right (Some (row 1 c_state)) true).
Lemma c_col1_call : call c_op c_right (Some (row 1 c_state)) true = Ok (fst (fst c_col1), snd (fst c_col1), row 1 c_state).
Proof. vm_cast_no_check (@eq_refl (res out3) (Ok (fst (fst c_col1), snd (fst c_col1), row 1 c_state))). Qed.

(** A series with missing rows: the first, two in the middle. *)
Definition d_series : val := ser [0; 1; 3; 0; 0; 5]%Z.
Definition d_op : operator := SimpleMovingAverage 2.
Lemma d_is_series : is_series 6 d_series.
Proof. split; [discriminate|]. repeat constructor. eexists; reflexivity. Qed.
Definition d_run : out3 := Eval vm_compute in ok3 (call (FFill d_op) d_series None true).
Definition d_po : val := Eval vm_compute in match snd d_run with Tup [a; _] => a | _ => Tup [] end.
Definition d_ps : val := Eval vm_compute in match snd d_run with Tup [_; b] => b | _ => Tup [] end.
Lemma d_call : call (FFill d_op) d_series None true = Ok (fst (fst d_run), snd (fst d_run), Tup [d_po; d_ps]).
Proof. vm_cast_no_check (@eq_refl (res out3) (Ok (fst (fst d_run), snd (fst d_run), Tup [d_po; d_ps]))). Qed.
Definition d_present : val := ser [1; 3; 5]%Z.
Lemma d_rows : rows 3 d_present = present (rows 6 d_series).
Proof. vm_cast_no_check (@eq_refl (list val) (rows 3 d_present)). Qed.
Lemma d_outputs : fst (fst d_run) = ser [0; 0; 2; 2; 2; 4]%Z.
Proof. vm_cast_no_check (@eq_refl val (fst (fst d_run))). Qed.
Lemma d_keeps : keeps_structure d_op (sk d_ps) (sk d_po) (rows 6 d_series).
Proof.
  change (sk d_ps) with z_sma. change (sk d_po) with one.
  eapply typed_keeps; [apply (c_typed d_series eq_refl)|]. intros x Hx. apply (rows_sk 6); [gen|exact d_is_series|exact Hx].
Qed.
(** Lag accepts every state of its own shape. *)
Definition e_state : val := Leaf (mkT [1] (DF [f0])).
Lemma e_accepts : accepts (Lag 1) e_state (sig (Leaf (fsc f0))) (rows 6 d_series).
Proof.
  intros x s Hx Gs Es.
  assert (exists a, x = Leaf (fsc a)) as (a & ->).
  { cbn in Hx. repeat (destruct Hx as [<-|Hx]; [eexists; reflexivity|]). destruct Hx. }
  destruct s as [[h d]| | | |]; try discriminate. unfold sig in Es. cbn in Es. injection Es as -> Ed.
  destruct d as [l|l|l]; try discriminate. destruct Gs as [_ W]. apply Forall_inv in W. destruct l as [|b [|]]; try discriminate.
  exists (Leaf (fsc b)), (Leaf (mkT [1] (DF [a]))). eexists. split; [reflexivity|]. split; [reflexivity|]. split; [reflexivity|]. easy.
Qed.
(** Both chunks of the series of Witness.v. *)
Definition e_head : out3 := Eval vm_compute in ok3 (call w_op w_head None true).
Lemma e_head_call : call w_op w_head None true = Ok (fst (fst e_head), snd (fst e_head), snd e_head).
Proof. vm_cast_no_check (@eq_refl (res out3) (Ok (fst (fst e_head), snd (fst e_head), snd e_head))). Qed.
Definition e_tail : out3 := Eval vm_compute in ok3 (call w_op w_tail (Some (snd (fst e_head))) true).
Lemma e_tail_call : call w_op w_tail (Some (snd (fst e_head))) true = Ok (fst (fst e_tail), snd (fst e_tail), snd e_tail).
Proof. vm_cast_no_check (@eq_refl (res out3) (Ok (fst (fst e_tail), snd (fst e_tail), snd e_tail))). Qed.
Lemma e_sig : sig (row 0 (fst (fst e_head))) = sig (row 0 (fst (fst e_tail))).
Proof. reflexivity. Qed.
