(** * SteadyTurn: small errors stay small (C67), in pipelines. *)
From Coq Require Import Reals Lra List ZArith Bool Lia.
From Verif Require Import Num Py Tensor Streamable Common Finance Series Formulas Positions ER MovingFacts Linear RealFacts RealStats RealMarket RealLinear RealScale RealScale2 NormFacts ImplBasic ImplComp ImplScalar ImplWindow ImplMarket MarketReal AccuracyMain Steady SteadyFacts Shapes ShapeFacts Algebra AlgebraFacts Meta VectorFacts.
Import ListNotations.
Open Scope R_scope.
#[local] Existing Instance ER.
(** ** Pipelines *)
Lemma fins_vhas s xs : rshaped s xs -> @vhas ER (tensors s (fins xs)) (wide (length xs) (tf s)).
Proof. intros [H _]. rewrite <- fins_length. apply (@tensors_vhas ER). unfold shaped, fins. apply Forall_map. eapply Forall_impl; [|exact H]. intros r Hr. now rewrite map_length. Qed.
Theorem steady_compose s : forall (ops : list (@operator ER)) Ks, ops <> [] -> Forall2 (fun op K => 0 <= K /\ steady K op s /\ @fits ER op (tf s) (tf s)) ops Ks ->
  steady (fold_right Rmult 1 Ks) (Compose (rev ops)) s.
Proof.
  intros ops Ks NE H e xs ys He NX OX OY A.
  assert (FT : @fit_in_turn ER ops (tf s) (tf s)).
  { clear - NE H. induction H as [|op K ops Ks (_ & _ & F) H IH]; [easy|]. destruct ops as [|op' ops]; [now constructor|]. econstructor; [exact F|]. apply IH. discriminate. }
  assert (G : exists ox oy, @give_in_turn ER ops (tensors s (fins xs)) (tensors s (fins ox)) /\ @give_in_turn ER ops (tensors s (fins ys)) (tensors s (fins oy)) /\
    length ox = length xs /\ rshaped s ox /\ rshaped s oy /\ apart (fold_right Rmult 1 Ks * e) ox oy).
  { clear FT. revert e xs ys He NX OX OY A. induction H as [|op K ops Ks (HK & St & F) H IH]; [easy|]. intros e xs ys He NX OX OY A.
    destruct (St e xs ys He NX OX OY A) as (ox & oy & sx & ix & sy & iy & Ex & Ey & L & Sx & Sy & A').
    destruct ops as [|op' ops].
    - inversion H; subst. exists ox, oy. split; [constructor; now exists sx, ix|]. split; [constructor; now exists sy, iy|]. cbn [fold_right]. rewrite Rmult_1_r. auto.
    - destruct (IH ltac:(discriminate) (K * e) ox oy) as (ox' & oy' & G1 & G2 & L' & Sx' & Sy' & A2); [now apply Rmult_le_pos|destruct ox, xs; easy|assumption..|].
      exists ox', oy'. split; [eapply give_next; [exists sx, ix; exact Ex|exact G1]|]. split; [eapply give_next; [exists sy, iy; exact Ey|exact G2]|]. split; [congruence|]. split; [exact Sx'|]. split; [exact Sy'|].
      cbn [fold_right] in A2 |- *. replace (K * (fold_right Rmult 1 Ks) * e) with (fold_right Rmult 1 Ks * (K * e)) by ring. exact A2. }
  destruct G as (ox & oy & G1 & G2 & L & Sx & Sy & A').
  assert (Lp : (length xs > 0)%nat) by (destruct xs; [easy|cbn; lia]). assert (Ly : (length ys > 0)%nat) by (destruct A as [LL _]; lia).
  apply (@compose_turn ER ops (tf s) (tf s) (length xs) _ _ FT Lp (fins_vhas s xs OX)) in G1 as (sx & ix & Ex).
  apply (@compose_turn ER ops (tf s) (tf s) (length ys) _ _ FT Ly (fins_vhas s ys OY)) in G2 as (sy & iy & Ey).
  exists ox, oy, sx, ix, sy, iy. auto 10.
Qed.
