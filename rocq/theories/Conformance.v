(** * Conformance: GENERATED by tools/gen_conformance.py.  The model, run in B32 on
    the inputs of the repository's own unit tests, reproduces their expected
    values within their tolerance (1.5e-3).  These are sanity tests of the
    model, not properties. *)
From Coq Require Import List ZArith Bool.
From Coq Require Import Floats.SpecFloat.
From Verif Require Import Num Py Tensor Streamable Meta Common Finance B32.
Import ListNotations.
Local Open Scope Z_scope.

(** A float32 logarithm good enough for the tests: binary64 atanh series after
    splitting off the exponent. *)
Definition d (z : Z) := b64_of_Z z.
Definition dmul := SFmul prec64 emax64.
Definition dadd_ := SFadd prec64 emax64.
Definition dsub_ := SFsub prec64 emax64.
Definition ddiv_ := SFdiv prec64 emax64.
Fixpoint atanh_series (n : nat) (k : Z) (y2 p : spec_float) : spec_float :=
  match n with
  | O => d 0
  | S n' => dadd_ (ddiv_ p (d k)) (atanh_series n' (k + 2) y2 (dmul p y2))
  end.
Definition ln_near (m : spec_float) : spec_float :=
  let y := ddiv_ (dsub_ m (d 1)) (dadd_ m (d 1)) in
  dmul (d 2) (atanh_series 40 1 (dmul y y) y).
Definition log_test (x : spec_float) : spec_float :=
  match x with
  | S754_finite false m e =>
      let k := Z.log2 (Zpos m) in
      let mm := binary_normalize prec64 emax64 (Zpos m) (- k) false in
      b32_of_b64 (dadd_ (dmul (d (e + k)) (ln_near (d 2))) (ln_near mm))
  | S754_zero _ => S754_infinity true
  | S754_infinity false => x
  | _ => S754_nan
  end.
#[local] Instance N : FOps := B32 log_test.

Definition ser (l : list spec_float) : val := Leaf (mkT [length l] (DF (l : list F))).
Definition seri (l : list Z) : val := Leaf (mkT [length l] (DI l)).
Definition mat (n k : nat) (l : list spec_float) : val := Leaf (mkT [n; k] (DF (l : list F))).
Definition tol : spec_float := b32_of_b64 (ddiv_ (d 3) (d 2000)).
Definition near (a b : F) : bool :=
  (fisnan a && fisnan b) || fle (fabs (fsub a b)) tol.
Fixpoint all2 {A} (f : A -> A -> bool) (l m : list A) : bool :=
  match l, m with
  | [], [] => true
  | x :: l', y :: m' => f x y && all2 f l' m'
  | _, _ => false
  end.
Definition near_t (t u : tensor) : bool :=
  shape_eqb (sh t) (sh u) &&
  match dat t, dat u with
  | DF a, DF b => all2 near a b
  | DI a, DI b => all2 Z.eqb a b
  | _, _ => false
  end.
Definition close_to (r : res out3) (e : val) : bool :=
  match r with Ok (o, _, _) => pv_eqb near_t o e | Err _ => false end.
(** Forget the k-th component of the outputs (the tests do not check it). *)
Definition dropout (k : nat) (op : operator) : operator :=
  Meta (fun x s => let* (o, a, b) := forward_step op x s in
     match o with Tup l => Ok (Tup (firstn k l ++ skipn (S k) l), a, b) | _ => Err EType end).
(** The Square operator of the spec files (compose_spec.py:16-23, map_spec.py). *)
Definition Square : operator := Plain (fun args =>
  let* _ := arity 1 2 args in
  let* x := targ args 0 in
  let* prev_x := targ_or args 1 (Ok (fsc f0)) in
  let* y := tmul prev_x prev_x in
  Ok (Leaf y, Leaf x, Leaf prev_x)).

Definition in_sma4 : val := ser [S754_finite false 16357786 (-22); S754_finite false 10066330 (-21); S754_finite false 9437184 (-21); S754_finite false 16357786 (-22); S754_finite false 15938355 (-22); S754_finite false 15099494 (-22); S754_finite false 14260634 (-22); S754_finite false 10905190 (-21); S754_finite false 9017754 (-21); S754_finite false 12792627 (-21); S754_finite false 8808038 (-21); S754_finite false 12582912 (-22); S754_finite false 14260634 (-22); S754_finite false 15099494 (-22); S754_finite false 15938355 (-22); S754_finite false 8598323 (-21); S754_finite false 11324621 (-21); S754_finite false 10905190 (-21); S754_finite false 12163482 (-21)].
Definition ex_sma4 : val := ser [S754_zero false; S754_zero false; S754_zero false; S754_finite false 8965325 (-21); S754_finite false 8912896 (-21); S754_finite false 16567501 (-22); S754_finite false 15414067 (-22); S754_finite false 8388608 (-21); S754_finite false 8650752 (-21); S754_finite false 9961472 (-21); S754_finite false 10380902 (-21); S754_finite false 9227469 (-21); S754_finite false 8755610 (-21); S754_finite false 14889779 (-22); S754_finite false 14470349 (-22); S754_finite false 15623782 (-22); S754_finite false 8860467 (-21); S754_finite false 9699328 (-21); S754_finite false 10747904 (-21)].
Example conf_sma4 : close_to (call (SimpleMovingAverage 4) in_sma4 None true) ex_sma4 = true.
Proof. vm_compute. reflexivity. Qed.

Definition in_sma10 : val := ser [S754_finite false 16357786 (-22); S754_finite false 10066330 (-21); S754_finite false 9437184 (-21); S754_finite false 16357786 (-22); S754_finite false 15938355 (-22); S754_finite false 15099494 (-22); S754_finite false 14260634 (-22); S754_finite false 10905190 (-21); S754_finite false 9017754 (-21); S754_finite false 12792627 (-21); S754_finite false 8808038 (-21); S754_finite false 12582912 (-22); S754_finite false 14260634 (-22); S754_finite false 15099494 (-22); S754_finite false 15938355 (-22); S754_finite false 8598323 (-21); S754_finite false 11324621 (-21); S754_finite false 10905190 (-21); S754_finite false 12163482 (-21)].
Definition ex_sma10 : val := ser [S754_zero false; S754_zero false; S754_zero false; S754_zero false; S754_zero false; S754_zero false; S754_zero false; S754_zero false; S754_zero false; S754_finite false 9122611 (-21); S754_finite false 9185526 (-21); S754_finite false 8808038 (-21); S754_finite false 8577352 (-21); S754_finite false 8514437 (-21); S754_finite false 8514437 (-21); S754_finite false 8619295 (-21); S754_finite false 9038725 (-21); S754_finite false 9038725 (-21); S754_finite false 9353298 (-21)].
Example conf_sma10 : close_to (call (SimpleMovingAverage 10) in_sma10 None true) ex_sma10 = true.
Proof. vm_compute. reflexivity. Qed.

Definition in_ema10 : val := ser [S754_finite false 11675894 (-19); S754_finite false 11633951 (-19); S754_finite false 11576279 (-19); S754_finite false 11623465 (-19); S754_finite false 11628708 (-19); S754_finite false 11602493 (-19); S754_finite false 11654922 (-19); S754_finite false 11759780 (-19); S754_finite false 11660165 (-19); S754_finite false 11686380 (-19); S754_finite false 11612979 (-19); S754_finite false 11738808 (-19); S754_finite false 11733565 (-19); S754_finite false 11854152 (-19); S754_finite false 12247368 (-19); S754_finite false 12609126 (-19); S754_finite false 12451840 (-19); S754_finite false 12493783 (-19); S754_finite false 12556698 (-19); S754_finite false 12388925 (-19); S754_finite false 12488540 (-19); S754_finite false 12514755 (-19); S754_finite false 12399411 (-19); S754_finite false 12158239 (-19); S754_finite false 12111053 (-19); S754_finite false 12231639 (-19); S754_finite false 11890852 (-19); S754_finite false 12111053 (-19); S754_finite false 11744051 (-19); S754_finite false 11623465 (-19)].
Definition ex_ema10 : val := ser [S754_zero false; S754_zero false; S754_zero false; S754_zero false; S754_zero false; S754_zero false; S754_zero false; S754_zero false; S754_zero false; S754_finite false 11650203 (-19); S754_finite false 11643435 (-19); S754_finite false 11660776 (-19); S754_finite false 11674010 (-19); S754_finite false 11706764 (-19); S754_finite false 11805055 (-19); S754_finite false 11951250 (-19); S754_finite false 12042266 (-19); S754_finite false 12124360 (-19); S754_finite false 12202967 (-19); S754_finite false 12236778 (-19); S754_finite false 12282553 (-19); S754_finite false 12324772 (-19); S754_finite false 12338342 (-19); S754_finite false 12305596 (-19); S754_finite false 12270225 (-19); S754_finite false 12263210 (-19); S754_finite false 12195508 (-19); S754_finite false 12180153 (-19); S754_finite false 12100862 (-19); S754_finite false 12014062 (-19)].
Example conf_ema10 : close_to (call (ExponentialMovingAverage 10) in_ema10 None true) ex_ema10 = true.
Proof. vm_compute. reflexivity. Qed.

Definition in_rma10 : val := ser [S754_finite false 15099494 (-24); S754_finite false 13757317 (-24); S754_finite false 9479127 (-23); S754_finite false 9563013 (-23); S754_finite false 10066330 (-24); S754_finite false 8891924 (-24); S754_finite false 12415140 (-24); S754_finite false 11408507 (-23); S754_finite false 10905190 (-23); S754_finite false 11744051 (-23); S754_finite false 11744051 (-24); S754_finite false 10569646 (-24); S754_finite false 10737418 (-23); S754_finite false 9395241 (-23); S754_finite false 14092861 (-25); S754_finite false 14763950 (-24); S754_finite false 13421773 (-24); S754_finite false 8975811 (-23); S754_finite false 13925089 (-24); S754_finite false 9395241 (-24); S754_finite false 14596178 (-24); S754_finite false 10443817 (-22); S754_finite false 9982444 (-22); S754_finite false 10066330 (-22); S754_finite false 11576279 (-24); S754_finite false 14680064 (-23); S754_finite false 15435039 (-24); S754_finite false 12918456 (-24); S754_finite false 10737418 (-23); S754_finite false 8388608 (-23); S754_finite false 15099494 (-24); S754_finite false 12247368 (-24); S754_finite false 12750684 (-24); S754_finite false 16609444 (-24); S754_finite false 10066330 (-23); S754_finite false 8556380 (-23); S754_finite false 8472494 (-23); S754_finite false 13925089 (-23); S754_finite false 10359931 (-22); S754_finite false 14092861 (-24); S754_finite false 13757317 (-24); S754_finite false 14428406 (-24); S754_finite false 12750684 (-23); S754_finite false 11744051 (-24); S754_finite false 11911823 (-24); S754_finite false 8640266 (-23); S754_finite false 11408507 (-24); S754_finite false 12582912 (-24); S754_finite false 13925089 (-24); S754_finite false 9059697 (-24); S754_finite false 14428406 (-25); S754_finite false 8388608 (-24); S754_finite false 10737418 (-23); S754_finite false 11744051 (-24); S754_finite false 16106127 (-23); S754_finite false 15099494 (-24); S754_finite false 16441672 (-24); S754_finite false 11408507 (-24); S754_finite false 9730785 (-22); S754_finite false 14428406 (-24); S754_finite false 9730785 (-24); S754_finite false 11072963 (-24); S754_finite false 16441672 (-24); S754_finite false 13086228 (-24); S754_finite false 12750684 (-24); S754_finite false 8388608 (-22); S754_finite false 12079596 (-23); S754_finite false 8891924 (-23); S754_finite false 11744051 (-23); S754_finite false 15099494 (-24); S754_finite false 12247368 (-23); S754_finite false 12079596 (-24); S754_finite false 10737418 (-24); S754_finite false 9898557 (-23); S754_finite false 9227469 (-23); S754_finite false 11576279 (-23); S754_finite false 11911823 (-22); S754_finite false 12918456 (-22); S754_finite false 13170115 (-22); S754_finite false 13925089 (-22); S754_finite false 14260634 (-23); S754_finite false 9730785 (-23); S754_finite false 11408507 (-23); S754_finite false 10737418 (-23); S754_finite false 11408507 (-24); S754_finite false 12750684 (-24); S754_finite false 11744051 (-24); S754_finite false 14260634 (-23); S754_finite false 11744051 (-22); S754_finite false 16441672 (-24); S754_finite false 10066330 (-23); S754_finite false 16609444 (-23); S754_finite false 9730785 (-23)].
Definition ex_rma10 : val := ser [S754_zero false; S754_zero false; S754_zero false; S754_zero false; S754_zero false; S754_zero false; S754_zero false; S754_zero false; S754_zero false; S754_finite false 16642998 (-24); S754_finite false 16153104 (-24); S754_finite false 15594758 (-24); S754_finite false 16182766 (-24); S754_finite false 16443537 (-24); S754_finite false 15503827 (-24); S754_finite false 15429839 (-24); S754_finite false 15229032 (-24); S754_finite false 15501291 (-24); S754_finite false 15343671 (-24); S754_finite false 14748828 (-24); S754_finite false 14733563 (-24); S754_finite false 8718867 (-23); S754_finite false 9843469 (-23); S754_finite false 10872388 (-23); S754_finite false 10363963 (-23); S754_finite false 10795573 (-23); S754_finite false 10487768 (-23); S754_finite false 10084914 (-23); S754_finite false 10150164 (-23); S754_finite false 9974009 (-23); S754_finite false 9731582 (-23); S754_finite false 9370793 (-23); S754_finite false 9071248 (-23); S754_finite false 8994595 (-23); S754_finite false 9101768 (-23); S754_finite false 9047230 (-23); S754_finite false 8989756 (-23); S754_finite false 9483289 (-23); S754_finite false 10606947 (-23); S754_finite false 10250895 (-23); S754_finite false 9913671 (-23); S754_finite false 9643725 (-23); S754_finite false 9954420 (-23); S754_finite false 9546181 (-23); S754_finite false 9187154 (-23); S754_finite false 9132465 (-23); S754_finite false 8789644 (-23); S754_finite false 8539825 (-23); S754_finite false 16764194 (-24); S754_finite false 15993745 (-24); S754_finite false 15115790 (-24); S754_finite false 14443072 (-24); S754_finite false 15146249 (-24); S754_finite false 14806029 (-24); S754_finite false 16546652 (-24); S754_finite false 16401936 (-24); S754_finite false 16405909 (-24); S754_finite false 15906169 (-24); S754_finite false 9103933 (-23); S754_finite false 8914960 (-23); S754_finite false 8510003 (-23); S754_finite false 16425302 (-24); S754_finite false 16426939 (-24); S754_finite false 16092868 (-24); S754_finite false 15758650 (-24); S754_finite false 8769114 (-23); S754_finite false 9100162 (-23); S754_finite false 9079338 (-23); S754_finite false 9345810 (-23); S754_finite false 9166203 (-23); S754_finite false 9474320 (-23); S754_finite false 9130868 (-23); S754_finite false 8754652 (-23); S754_finite false 8869042 (-23); S754_finite false 8904885 (-23); S754_finite false 9172024 (-23); S754_finite false 10637187 (-23); S754_finite false 12157159 (-23); S754_finite false 13575466 (-23); S754_finite false 15002937 (-23); S754_finite false 14928707 (-23); S754_finite false 14408915 (-23); S754_finite false 14108874 (-23); S754_finite false 13771729 (-23); S754_finite false 12964981 (-23); S754_finite false 12306017 (-23); S754_finite false 11662618 (-23); S754_finite false 11922420 (-23); S754_finite false 13078988 (-23); S754_finite false 12593173 (-23); S754_finite false 12340488 (-23); S754_finite false 12767384 (-23); S754_finite false 12463724 (-23)].
Example conf_rma10 : close_to (call (RollingMovingAverage 10) in_rma10 None true) ex_rma10 = true.
Proof. vm_compute. reflexivity. Qed.

Definition in_msd10 : val := ser [S754_finite false 13835960 (-18); S754_finite false 13898875 (-18); S754_finite false 14069268 (-18); S754_finite false 14069268 (-18); S754_finite false 14087619 (-18); S754_finite false 14011597 (-18); S754_finite false 14082376 (-18); S754_finite false 13995868 (-18); S754_finite false 13765181 (-18); S754_finite false 13715374 (-18); S754_finite false 13487309 (-18); S754_finite false 13526630 (-18); S754_finite false 13744210 (-18); S754_finite false 13754696 (-18); S754_finite false 13870039 (-18); S754_finite false 13649838 (-18); S754_finite false 13925089 (-18); S754_finite false 13833339 (-18); S754_finite false 13822853 (-18); S754_finite false 13655081 (-18); S754_finite false 13943439 (-18); S754_finite false 14084997 (-18); S754_finite false 14121697 (-18); S754_finite false 14116454 (-18); S754_finite false 14124319 (-18); S754_finite false 14176748 (-18); S754_finite false 14192476 (-18); S754_finite false 14286848 (-18); S754_finite false 14234419 (-18); S754_finite false 14260634 (-18); S754_finite false 14197719 (-18)].
Definition ex_msd10 : val := ser [S754_zero false; S754_zero false; S754_zero false; S754_zero false; S754_zero false; S754_zero false; S754_zero false; S754_zero false; S754_zero false; S754_finite false 8479401 (-24); S754_finite false 12254766 (-24); S754_finite false 14393600 (-24); S754_finite false 14000242 (-24); S754_finite false 13251622 (-24); S754_finite false 12034832 (-24); S754_finite false 11357333 (-24); S754_finite false 9821495 (-24); S754_finite false 8519869 (-24); S754_finite false 8695406 (-24); S754_finite false 8821434 (-24); S754_finite false 16122756 (-25); S754_finite false 16424852 (-25); S754_finite false 9692890 (-24); S754_finite false 10448866 (-24); S754_finite false 11238230 (-24); S754_finite false 10426051 (-24); S754_finite false 11087963 (-24); S754_finite false 11584106 (-24); S754_finite false 10918359 (-24); S754_finite false 12137432 (-25); S754_finite false 16376350 (-26)].
Example conf_msd10 : close_to (call (MovingStandardDeviation 10) in_msd10 None true) ex_msd10 = true.
Proof. vm_compute. reflexivity. Qed.

Definition in_bollinger : val := ser [S754_finite false 11292600 (-17); S754_finite false 11676772 (-17); S754_finite false 11636952 (-17); S754_finite false 11838790 (-17); S754_finite false 11674203 (-17); S754_finite false 11946597 (-17); S754_finite false 11723040 (-17); S754_finite false 11688346 (-17); S754_finite false 11394115 (-17); S754_finite false 11491764 (-17); S754_finite false 11397969 (-17); S754_finite false 11721756 (-17); S754_finite false 11707626 (-17); S754_finite false 11629245 (-17); S754_finite false 11462207 (-17); S754_finite false 11437788 (-17); S754_finite false 11730747 (-17); S754_finite false 11521307 (-17); S754_finite false 11681923 (-17); S754_finite false 11888794 (-17); S754_finite false 12176602 (-17); S754_finite false 12186865 (-17); S754_finite false 12032685 (-17); S754_finite false 12145748 (-17); S754_finite false 12148317 (-17); S754_finite false 12098221 (-17); S754_finite false 12159877 (-17); S754_finite false 12129049 (-17); S754_finite false 12183011 (-17); S754_finite false 12216422 (-17); S754_finite false 11936321 (-17); S754_finite false 11774434 (-17); S754_finite false 11762860 (-17); S754_finite false 11848830 (-17); S754_finite false 11893303 (-17); S754_finite false 11536656 (-17); S754_finite false 11545700 (-17); S754_finite false 11644948 (-17); S754_finite false 11898467 (-17); S754_finite false 11867469 (-17); S754_finite false 11978591 (-17); S754_finite false 11881677 (-17)].
Definition ex_bollinger : val := Tup [ser [S754_zero false; S754_zero false; S754_zero false; S754_zero false; S754_zero false; S754_zero false; S754_zero false; S754_zero false; S754_zero false; S754_zero false; S754_zero false; S754_zero false; S754_zero false; S754_zero false; S754_zero false; S754_zero false; S754_zero false; S754_zero false; S754_zero false; S754_finite false 11288445 (-17); S754_finite false 11290686 (-17); S754_finite false 11254746 (-17); S754_finite false 11252164 (-17); S754_finite false 11233355 (-17); S754_finite false 11226173 (-17); S754_finite false 11218898 (-17); S754_finite false 11214520 (-17); S754_finite false 11219422 (-17); S754_finite false 11269243 (-17); S754_finite false 11308145 (-17); S754_finite false 11379723 (-17); S754_finite false 11385609 (-17); S754_finite false 11392123 (-17); S754_finite false 11418573 (-17); S754_finite false 11486246 (-17); S754_finite false 11511477 (-17); S754_finite false 11476953 (-17); S754_finite false 11502813 (-17); S754_finite false 11529919 (-17); S754_finite false 11528045 (-17); S754_finite false 11529604 (-17); S754_finite false 11528031 (-17)]; ser [S754_zero false; S754_zero false; S754_zero false; S754_zero false; S754_zero false; S754_zero false; S754_zero false; S754_zero false; S754_zero false; S754_zero false; S754_zero false; S754_zero false; S754_zero false; S754_zero false; S754_zero false; S754_zero false; S754_zero false; S754_zero false; S754_zero false; S754_finite false 11627122 (-17); S754_finite false 11671332 (-17); S754_finite false 11696826 (-17); S754_finite false 11716618 (-17); S754_finite false 11731966 (-17); S754_finite false 11755677 (-17); S754_finite false 11763253 (-17); S754_finite false 11785090 (-17); S754_finite false 11807136 (-17); S754_finite false 11846576 (-17); S754_finite false 11882804 (-17); S754_finite false 11909726 (-17); S754_finite false 11912361 (-17); S754_finite false 11915126 (-17); S754_finite false 11926097 (-17); S754_finite false 11947658 (-17); S754_finite false 11952600 (-17); S754_finite false 11943346 (-17); S754_finite false 11949533 (-17); S754_finite false 11960359 (-17); S754_finite false 11959285 (-17); S754_finite false 11949389 (-17); S754_finite false 11934132 (-17)]; ser [S754_zero false; S754_zero false; S754_zero false; S754_zero false; S754_zero false; S754_zero false; S754_zero false; S754_zero false; S754_zero false; S754_zero false; S754_zero false; S754_zero false; S754_zero false; S754_zero false; S754_zero false; S754_zero false; S754_zero false; S754_zero false; S754_zero false; S754_finite false 11965812 (-17); S754_finite false 12051979 (-17); S754_finite false 12138919 (-17); S754_finite false 12181071 (-17); S754_finite false 12230577 (-17); S754_finite false 12285169 (-17); S754_finite false 12307608 (-17); S754_finite false 12355672 (-17); S754_finite false 12394837 (-17); S754_finite false 12423909 (-17); S754_finite false 12457476 (-17); S754_finite false 12439729 (-17); S754_finite false 12439113 (-17); S754_finite false 12438117 (-17); S754_finite false 12433621 (-17); S754_finite false 12409058 (-17); S754_finite false 12393723 (-17); S754_finite false 12409740 (-17); S754_finite false 12396239 (-17); S754_finite false 12390800 (-17); S754_finite false 12390538 (-17); S754_finite false 12369173 (-17); S754_finite false 12340232 (-17)]].
Example conf_bollinger : close_to (call (BollingerBands 20 (PyInt 2)) in_bollinger None true) ex_bollinger = true.
Proof. vm_compute. reflexivity. Qed.

Definition in_return5 : val := ser [S754_finite false 11675894 (-19); S754_finite false 11633951 (-19); S754_finite false 11576279 (-19); S754_finite false 11623465 (-19); S754_finite false 11628708 (-19); S754_finite false 11602493 (-19); S754_finite false 11654922 (-19); S754_finite false 11759780 (-19); S754_finite false 11660165 (-19); S754_finite false 11686380 (-19); S754_finite false 11612979 (-19); S754_finite false 11738808 (-19); S754_finite false 11733565 (-19); S754_finite false 11854152 (-19); S754_finite false 12247368 (-19); S754_finite false 12609126 (-19); S754_finite false 12451840 (-19); S754_finite false 12493783 (-19); S754_finite false 12556698 (-19); S754_finite false 12388925 (-19); S754_finite false 12488540 (-19); S754_finite false 12514755 (-19); S754_finite false 12399411 (-19); S754_finite false 12158239 (-19); S754_finite false 12111053 (-19); S754_finite false 12231639 (-19); S754_finite false 11890852 (-19); S754_finite false 12111053 (-19); S754_finite false 11744051 (-19); S754_finite false 11623465 (-19)].
Definition ex_return5 : val := ser [S754_zero false; S754_zero false; S754_zero false; S754_zero false; S754_zero false; S754_finite true 13500122 (-31); S754_finite false 15484335 (-33); S754_finite false 8510182 (-29); S754_finite false 13561015 (-32); S754_finite false 10650280 (-31); S754_finite false 15526316 (-34); S754_finite false 15456473 (-31); S754_finite true 9574158 (-32); S754_finite false 8931755 (-29); S754_finite false 12885865 (-28); S754_finite false 11513033 (-27); S754_finite false 16305146 (-28); S754_finite false 8695965 (-27); S754_finite false 15909045 (-28); S754_finite false 12410543 (-30); S754_finite true 10268633 (-30); S754_finite false 10850444 (-31); S754_finite true 16221026 (-31); S754_finite true 8518202 (-28); S754_finite true 12041540 (-29); S754_finite true 11043944 (-29); S754_finite true 13382413 (-28); S754_finite true 12485370 (-29); S754_finite true 9144632 (-28); S754_finite true 10807142 (-28)].
Example conf_return5 : close_to (call (Return 5) in_return5 None true) ex_return5 = true.
Proof. vm_compute. reflexivity. Qed.

Definition in_logreturn5 : val := ser [S754_finite false 11675894 (-19); S754_finite false 11633951 (-19); S754_finite false 11576279 (-19); S754_finite false 11623465 (-19); S754_finite false 11628708 (-19); S754_finite false 11602493 (-19); S754_finite false 11654922 (-19); S754_finite false 11759780 (-19); S754_finite false 11660165 (-19); S754_finite false 11686380 (-19); S754_finite false 11612979 (-19); S754_finite false 11738808 (-19); S754_finite false 11733565 (-19); S754_finite false 11854152 (-19); S754_finite false 12247368 (-19); S754_finite false 12609126 (-19); S754_finite false 12451840 (-19); S754_finite false 12493783 (-19); S754_finite false 12556698 (-19); S754_finite false 12388925 (-19); S754_finite false 12488540 (-19); S754_finite false 12514755 (-19); S754_finite false 12399411 (-19); S754_finite false 12158239 (-19); S754_finite false 12111053 (-19); S754_finite false 12231639 (-19); S754_finite false 11890852 (-19); S754_finite false 12111053 (-19); S754_finite false 11744051 (-19); S754_finite false 11623465 (-19)].
Definition ex_logreturn5 : val := ser [S754_zero false; S754_zero false; S754_zero false; S754_zero false; S754_zero false; S754_finite true 13542735 (-31); S754_finite false 15470395 (-33); S754_finite false 8443437 (-29); S754_finite false 13539651 (-32); S754_finite false 10623957 (-31); S754_finite false 15519305 (-34); S754_finite false 15401114 (-31); S754_finite true 9584845 (-32); S754_finite false 8858272 (-29); S754_finite false 12586136 (-28); S754_finite false 11045783 (-27); S754_finite false 15829129 (-28); S754_finite false 8425865 (-27); S754_finite false 15455450 (-28); S754_finite false 12339369 (-30); S754_finite true 10318050 (-30); S754_finite false 10823124 (-31); S754_finite true 16282599 (-31); S754_finite true 8656284 (-28); S754_finite true 12178634 (-29); S754_finite true 11159118 (-29); S754_finite true 13727510 (-28); S754_finite true 12632840 (-29); S754_finite true 9304025 (-28); S754_finite true 11030709 (-28)].
Example conf_logreturn5 : close_to (call (LogarithmicReturn 5) in_logreturn5 None true) ex_logreturn5 = true.
Proof. vm_compute. reflexivity. Qed.

Definition in_momentum5 : val := ser [S754_finite false 11675894 (-19); S754_finite false 11633951 (-19); S754_finite false 11576279 (-19); S754_finite false 11623465 (-19); S754_finite false 11628708 (-19); S754_finite false 11602493 (-19); S754_finite false 11654922 (-19); S754_finite false 11759780 (-19); S754_finite false 11660165 (-19); S754_finite false 11686380 (-19); S754_finite false 11612979 (-19); S754_finite false 11738808 (-19); S754_finite false 11733565 (-19); S754_finite false 11854152 (-19); S754_finite false 12247368 (-19); S754_finite false 12609126 (-19); S754_finite false 12451840 (-19); S754_finite false 12493783 (-19); S754_finite false 12556698 (-19); S754_finite false 12388925 (-19); S754_finite false 12488540 (-19); S754_finite false 12514755 (-19); S754_finite false 12399411 (-19); S754_finite false 12158239 (-19); S754_finite false 12111053 (-19); S754_finite false 12231639 (-19); S754_finite false 11890852 (-19); S754_finite false 12111053 (-19); S754_finite false 11744051 (-19); S754_finite false 11623465 (-19)].
Definition ex_momentum5 : val := ser [S754_zero false; S754_zero false; S754_zero false; S754_zero false; S754_zero false; S754_finite true 9395241 (-26); S754_finite false 10737418 (-28); S754_finite false 11744051 (-25); S754_finite false 9395241 (-27); S754_finite false 14763950 (-27); S754_finite false 10737418 (-29); S754_finite false 10737418 (-26); S754_finite true 13421773 (-28); S754_finite false 12415140 (-25); S754_finite false 8975811 (-23); S754_finite false 15938355 (-23); S754_finite false 11408507 (-23); S754_finite false 12163482 (-23); S754_finite false 11240735 (-23); S754_finite false 9059697 (-25); S754_finite true 15435039 (-26); S754_finite false 16106127 (-27); S754_finite true 12079596 (-26); S754_finite true 12750684 (-24); S754_finite true 8891924 (-24); S754_finite true 16441672 (-25); S754_finite true 9982444 (-23); S754_finite true 9227469 (-24); S754_finite true 13254001 (-24); S754_finite true 15602811 (-24)].
Example conf_momentum5 : close_to (call (Momentum 5) in_momentum5 None true) ex_momentum5 = true.
Proof. vm_compute. reflexivity. Qed.

Definition in_macd : val := ser [S754_finite false 15072952 (-15); S754_finite false 14707917 (-15); S754_finite false 14616494 (-15); S754_finite false 14772142 (-15); S754_finite false 14509670 (-15); S754_finite false 14711849 (-15); S754_finite false 14567670 (-15); S754_finite false 14463795 (-15); S754_finite false 14105641 (-15); S754_finite false 13764198 (-15); S754_finite false 14127596 (-15); S754_finite false 13948027 (-15); S754_finite false 14109245 (-15); S754_finite false 14146601 (-15); S754_finite false 14348124 (-15); S754_finite false 14038794 (-15); S754_finite false 14036173 (-15); S754_finite false 14172160 (-15); S754_finite false 14537851 (-15); S754_finite false 14933033 (-15); S754_finite false 14892728 (-15); S754_finite false 14813757 (-15); S754_finite false 14835057 (-15); S754_finite false 15135867 (-15); S754_finite false 15190589 (-15); S754_finite false 15110636 (-15); S754_finite false 14813757 (-15); S754_finite false 14505083 (-15); S754_finite false 14054523 (-15); S754_finite false 14083359 (-15); S754_finite false 14155448 (-15); S754_finite false 14015529 (-15); S754_finite false 13867418 (-15); S754_finite false 13966049 (-15); S754_finite false 13991281 (-15); S754_finite false 14276690 (-15); S754_finite false 14232125 (-15); S754_finite false 14083686 (-15); S754_finite false 13757645 (-15); S754_finite false 13967032 (-15); S754_finite false 13198950 (-15); S754_finite false 12846694 (-15); S754_finite false 12796887 (-15); S754_finite false 13063619 (-15); S754_finite false 13308068 (-15); S754_finite false 13286113 (-15); S754_finite false 13381796 (-15); S754_finite false 13670810 (-15); S754_finite false 14094172 (-15); S754_finite false 14509015 (-15); S754_finite false 14394655 (-15); S754_finite false 14598799 (-15); S754_finite false 14744945 (-15); S754_finite false 15096545 (-15); S754_finite false 15029371 (-15); S754_finite false 15199109 (-15); S754_finite false 14967439 (-15); S754_finite false 14842921 (-15); S754_finite false 14900920 (-15); S754_finite false 14544404 (-15); S754_finite false 14052557 (-15); S754_finite false 14240317 (-15); S754_finite false 14197064 (-15); S754_finite false 14513930 (-15); S754_finite false 14406779 (-15); S754_finite false 14462157 (-15)].
Definition ex_macd : val := Tup [ser [S754_zero false; S754_zero false; S754_zero false; S754_zero false; S754_zero false; S754_zero false; S754_zero false; S754_zero false; S754_zero false; S754_zero false; S754_zero false; S754_zero false; S754_zero false; S754_zero false; S754_zero false; S754_zero false; S754_zero false; S754_zero false; S754_zero false; S754_zero false; S754_zero false; S754_zero false; S754_zero false; S754_zero false; S754_zero false; S754_finite false 14525714 (-15); S754_finite false 14547051 (-15); S754_finite false 14543942 (-15); S754_finite false 14507689 (-15); S754_finite false 14476257 (-15); S754_finite false 14452493 (-15); S754_finite false 14420126 (-15); S754_finite false 14379184 (-15); S754_finite false 14348582 (-15); S754_finite false 14322115 (-15); S754_finite false 14318750 (-15); S754_finite false 14312333 (-15); S754_finite false 14295397 (-15); S754_finite false 14255563 (-15); S754_finite false 14234190 (-15); S754_finite false 14157506 (-15); S754_finite false 14060409 (-15); S754_finite false 13966815 (-15); S754_finite false 13899911 (-15); S754_finite false 13856071 (-15); S754_finite false 13813852 (-15); S754_finite false 13781848 (-15); S754_finite false 13773623 (-15); S754_finite false 13797367 (-15); S754_finite false 13850082 (-15); S754_finite false 13890421 (-15); S754_finite false 13942893 (-15); S754_finite false 14002304 (-15); S754_finite false 14083359 (-15); S754_finite false 14153434 (-15); S754_finite false 14230891 (-15); S754_finite false 14285451 (-15); S754_finite false 14326745 (-15); S754_finite false 14369276 (-15); S754_finite false 14382249 (-15); S754_finite false 14357827 (-15); S754_finite false 14349123 (-15); S754_finite false 14337859 (-15); S754_finite false 14350901 (-15); S754_finite false 14355040 (-15); S754_finite false 14362975 (-15)]; ser [S754_zero false; S754_zero false; S754_zero false; S754_zero false; S754_zero false; S754_zero false; S754_zero false; S754_zero false; S754_zero false; S754_zero false; S754_zero false; S754_finite false 14447329 (-15); S754_finite false 14395316 (-15); S754_finite false 14357052 (-15); S754_finite false 14355679 (-15); S754_finite false 14306927 (-15); S754_finite false 14265273 (-15); S754_finite false 14250948 (-15); S754_finite false 14295087 (-15); S754_finite false 14393232 (-15); S754_finite false 14470078 (-15); S754_finite false 14522952 (-15); S754_finite false 14570968 (-15); S754_finite false 14657875 (-15); S754_finite false 14739831 (-15); S754_finite false 14796878 (-15); S754_finite false 14799475 (-15); S754_finite false 14754184 (-15); S754_finite false 14646544 (-15); S754_finite false 14559900 (-15); S754_finite false 14497677 (-15); S754_finite false 14423500 (-15); S754_finite false 14337949 (-15); S754_finite false 14280734 (-15); S754_finite false 14236202 (-15); S754_finite false 14242431 (-15); S754_finite false 14240846 (-15); S754_finite false 14216667 (-15); S754_finite false 14146048 (-15); S754_finite false 14118508 (-15); S754_finite false 13977037 (-15); S754_finite false 13803138 (-15); S754_finite false 13648330 (-15); S754_finite false 13558375 (-15); S754_finite false 13519866 (-15); S754_finite false 13483904 (-15); S754_finite false 13468195 (-15); S754_finite false 13499367 (-15); S754_finite false 13590875 (-15); S754_finite false 13732127 (-15); S754_finite false 13834055 (-15); S754_finite false 13951708 (-15); S754_finite false 14073744 (-15); S754_finite false 14231098 (-15); S754_finite false 14353909 (-15); S754_finite false 14483940 (-15); S754_finite false 14558325 (-15); S754_finite false 14602109 (-15); S754_finite false 14648080 (-15); S754_finite false 14632130 (-15); S754_finite false 14542965 (-15); S754_finite false 14496403 (-15); S754_finite false 14450351 (-15); S754_finite false 14460133 (-15); S754_finite false 14451924 (-15); S754_finite false 14453499 (-15)]; ser [S754_zero false; S754_zero false; S754_zero false; S754_zero false; S754_zero false; S754_zero false; S754_zero false; S754_zero false; S754_zero false; S754_zero false; S754_zero false; S754_zero false; S754_zero false; S754_zero false; S754_zero false; S754_zero false; S754_zero false; S754_zero false; S754_zero false; S754_zero false; S754_zero false; S754_zero false; S754_zero false; S754_zero false; S754_zero false; S754_finite false 8677249 (-20); S754_finite false 16155155 (-21); S754_finite false 13455484 (-21); S754_finite false 8886723 (-21); S754_finite false 10706310 (-22); S754_finite false 11566932 (-23); S754_finite false 13821942 (-27); S754_finite true 10556241 (-23); S754_finite true 8684550 (-22); S754_finite true 10996804 (-22); S754_finite true 9768814 (-22); S754_finite true 9150428 (-22); S754_finite true 10077345 (-22); S754_finite true 14017874 (-22); S754_finite true 14807416 (-22); S754_finite true 11550004 (-21); S754_finite true 16465315 (-21); S754_finite true 10191495 (-20); S754_finite true 10929168 (-20); S754_finite true 10758560 (-20); S754_finite true 10558332 (-20); S754_finite true 10036885 (-20); S754_finite true 8776197 (-20); S754_finite true 13215488 (-21); S754_finite true 15098159 (-22); S754_finite true 14429650 (-23); S754_finite false 9026251 (-25); S754_finite false 9144309 (-22); S754_finite false 9455299 (-21); S754_finite false 12830418 (-21); S754_finite false 16195111 (-21); S754_finite false 8731968 (-20); S754_finite false 8811647 (-20); S754_finite false 8921711 (-20); S754_finite false 15992382 (-21); S754_finite false 11848802 (-21); S754_finite false 9425974 (-21); S754_finite false 14399001 (-22); S754_finite false 13981603 (-22); S754_finite false 12401143 (-22); S754_finite false 11587022 (-22)]; ser [S754_zero false; S754_zero false; S754_zero false; S754_zero false; S754_zero false; S754_zero false; S754_zero false; S754_zero false; S754_zero false; S754_zero false; S754_zero false; S754_zero false; S754_zero false; S754_zero false; S754_zero false; S754_zero false; S754_zero false; S754_zero false; S754_zero false; S754_zero false; S754_zero false; S754_zero false; S754_zero false; S754_zero false; S754_zero false; S754_zero false; S754_zero false; S754_zero false; S754_zero false; S754_zero false; S754_zero false; S754_zero false; S754_zero false; S754_finite false 12740307 (-22); S754_finite false 15985770 (-23); S754_finite false 8881090 (-23); S754_finite false 13778803 (-25); S754_finite true 10201419 (-26); S754_finite true 13254583 (-24); S754_finite true 11224800 (-23); S754_finite true 9109922 (-22); S754_finite true 13874064 (-22); S754_finite true 9626224 (-21); S754_finite true 12072646 (-21); S754_finite true 13961541 (-21); S754_finite true 15392565 (-21); S754_finite true 16328806 (-21); S754_finite true 16573524 (-21); S754_finite true 15901917 (-21); S754_finite true 14231349 (-21); S754_finite true 12106562 (-21); S754_finite true 9572421 (-21); S754_finite true 13487012 (-22); S754_finite true 14014980 (-23); S754_finite true 15162397 (-27); S754_finite false 12197969 (-23); S754_finite false 11864762 (-22); S754_finite false 16541127 (-22); S754_finite false 10185135 (-21); S754_finite false 11346584 (-21); S754_finite false 11447028 (-21); S754_finite false 11042817 (-21); S754_finite false 10274154 (-21); S754_finite false 9617483 (-21); S754_finite false 8934101 (-21); S754_finite false 16611966 (-22)]; ser [S754_zero false; S754_zero false; S754_zero false; S754_zero false; S754_zero false; S754_zero false; S754_zero false; S754_zero false; S754_zero false; S754_zero false; S754_zero false; S754_zero false; S754_zero false; S754_zero false; S754_zero false; S754_zero false; S754_zero false; S754_zero false; S754_zero false; S754_zero false; S754_zero false; S754_zero false; S754_zero false; S754_zero false; S754_zero false; S754_zero false; S754_zero false; S754_zero false; S754_zero false; S754_zero false; S754_zero false; S754_zero false; S754_zero false; S754_finite true 10712429 (-21); S754_finite true 9494844 (-21); S754_finite true 14209359 (-22); S754_finite true 10872779 (-22); S754_finite true 9439756 (-22); S754_finite true 10704229 (-22); S754_finite true 9195016 (-22); S754_finite true 13990087 (-22); S754_finite true 9528284 (-21); S754_finite true 10756767 (-21); S754_finite true 9785689 (-21); S754_finite true 15111158 (-22); S754_finite true 11448196 (-22); S754_finite true 14979857 (-23); S754_finite true 15661919 (-25); S754_finite false 10745714 (-23); S754_finite false 13364540 (-22); S754_finite false 8499149 (-21); S754_finite false 10136562 (-21); S754_finite false 11315661 (-21); S754_finite false 12959044 (-21); S754_finite false 13067331 (-21); S754_finite false 13145619 (-21); S754_finite false 11531555 (-21); S754_finite false 9352730 (-21); S754_finite false 15316573 (-22); S754_finite false 9291595 (-22); S754_finite false 12856771 (-26); S754_finite true 12934744 (-24); S754_finite true 12298613 (-23); S754_finite true 10506728 (-23); S754_finite true 10934118 (-23); S754_finite true 10049889 (-23)]].
Example conf_macd : close_to (call (MovingAverageConvergenceDivergence 26 12 9) in_macd None true) ex_macd = true.
Proof. vm_compute. reflexivity. Qed.

Definition in_crossover : val := ser [S754_finite false 16357786 (-22); S754_finite false 10066330 (-21); S754_finite false 9437184 (-21); S754_finite false 16357786 (-22); S754_finite false 15938355 (-22); S754_finite false 15099494 (-22); S754_finite false 14260634 (-22); S754_finite false 10905190 (-21); S754_finite false 9017754 (-21); S754_finite false 12792627 (-21); S754_finite false 8808038 (-21); S754_finite false 12582912 (-22); S754_finite false 14260634 (-22); S754_finite false 15099494 (-22); S754_finite false 15938355 (-22); S754_finite false 8598323 (-21); S754_finite false 11324621 (-21); S754_finite false 10905190 (-21); S754_finite false 12163482 (-21)].
Definition ex_crossover : val := ser [S754_zero false; S754_zero false; S754_zero false; S754_zero false; S754_zero false; S754_zero false; S754_zero false; S754_zero false; S754_zero false; S754_finite false 13421773 (-25); S754_finite false 9563013 (-24); S754_finite false 13421773 (-26); S754_finite false 11408507 (-27); S754_finite true 8556380 (-24); S754_finite true 10234102 (-24); S754_finite true 12918456 (-25); S754_finite true 11408507 (-27); S754_finite false 10569646 (-25); S754_finite false 11156849 (-24)].
Example conf_crossover : close_to (call (SimpleMovingAverageCrossover 10 4) in_crossover None true) ex_crossover = true.
Proof. vm_compute. reflexivity. Qed.

Definition in_rsi14 : val := ser [S754_finite false 11623177 (-18); S754_finite false 11557981 (-18); S754_finite false 11573579 (-18); S754_finite false 11432729 (-18); S754_finite false 11620267 (-18); S754_finite false 11750972 (-18); S754_finite false 11821515 (-18); S754_finite false 11907760 (-18); S754_finite false 12017546 (-18); S754_finite false 12080277 (-18); S754_finite false 12030601 (-18); S754_finite false 12067222 (-18); S754_finite false 11957436 (-18); S754_finite false 12132549 (-18); S754_finite false 12132549 (-18); S754_finite false 12059358 (-18); S754_finite false 12067222 (-18); S754_finite false 12166522 (-18); S754_finite false 12116872 (-18); S754_finite false 11965275 (-18); S754_finite false 12114251 (-18); S754_finite false 12124711 (-18); S754_finite false 11983572 (-18); S754_finite false 12176982 (-18); S754_finite false 12001870 (-18); S754_finite false 11889489 (-18); S754_finite false 11541886 (-18); S754_finite false 11581076 (-18); S754_finite false 11591510 (-18); S754_finite false 11683024 (-18); S754_finite false 11382424 (-18); S754_finite false 11183797 (-18); S754_finite false 11306638 (-18)].
Definition ex_rsi14 : val := ser [S754_zero false; S754_zero false; S754_zero false; S754_zero false; S754_zero false; S754_zero false; S754_zero false; S754_zero false; S754_zero false; S754_zero false; S754_zero false; S754_zero false; S754_zero false; S754_zero false; S754_finite false 9244875 (-17); S754_finite false 8692512 (-17); S754_finite false 8722815 (-17); S754_finite false 9097223 (-17); S754_finite false 8697309 (-17); S754_finite false 15197772 (-18); S754_finite false 16496617 (-18); S754_finite false 16582469 (-18); S754_finite false 14695609 (-18); S754_finite false 16351783 (-18); S754_finite false 14341269 (-18); S754_finite false 13218034 (-18); S754_finite false 10483086 (-18); S754_finite false 10868621 (-18); S754_finite false 10975681 (-18); S754_finite false 11917905 (-18); S754_finite false 9779020 (-18); S754_finite false 8671592 (-18); S754_finite false 9901965 (-18)].
Example conf_rsi14 : close_to (call (RelativeStrengthIndex 14) in_rsi14 None true) ex_rsi14 = true.
Proof. vm_compute. reflexivity. Qed.

Definition in_atr14 : val := Tup [ser [S754_finite false 12624855 (-18); S754_finite false 12742820 (-18); S754_finite false 12779520 (-18); S754_finite false 12748063 (-18); S754_finite false 12776899 (-18); S754_finite false 12852920 (-18); S754_finite false 12863406 (-18); S754_finite false 12928942 (-18); S754_finite false 13083607 (-18); S754_finite false 13141279 (-18); S754_finite false 12983992 (-18); S754_finite false 12976128 (-18); S754_finite false 13041664 (-18); S754_finite false 13115064 (-18); S754_finite false 13188465 (-18); S754_finite false 13243515 (-18); S754_finite false 13214679 (-18); S754_finite false 12934185 (-18); S754_finite false 12942049 (-18); S754_finite false 13167493 (-18); S754_finite false 12907315 (-18); S754_finite false 13088850 (-18); S754_finite false 12695634 (-18); S754_finite false 12630098 (-18); S754_finite false 12208046 (-18); S754_finite false 11903959 (-18); S754_finite false 12522619 (-18); S754_finite false 12509512 (-18); S754_finite false 12745441 (-18); S754_finite false 12543590 (-18)]; ser [S754_finite false 12527862 (-18); S754_finite false 12619612 (-18); S754_finite false 12685148 (-18); S754_finite false 12679905 (-18); S754_finite false 12645827 (-18); S754_finite false 12749373 (-18); S754_finite false 12829327 (-18); S754_finite false 12808356 (-18); S754_finite false 12976128 (-18); S754_finite false 13073121 (-18); S754_finite false 12897485 (-18); S754_finite false 12818842 (-18); S754_finite false 12957778 (-18); S754_finite false 13035110 (-18); S754_finite false 12913213 (-18); S754_finite false 13130793 (-18); S754_finite false 13185843 (-18); S754_finite false 12900106 (-18); S754_finite false 12839813 (-18); S754_finite false 13004964 (-18); S754_finite false 12897485 (-18); S754_finite false 12957778 (-18); S754_finite false 12603884 (-18); S754_finite false 12488540 (-18); S754_finite false 10892083 (-18); S754_finite false 11608601 (-18); S754_finite false 12402033 (-18); S754_finite false 12373197 (-18); S754_finite false 12556698 (-18); S754_finite false 12512159 (-18)]; ser [S754_finite false 12766413 (-18); S754_finite false 12771656 (-18); S754_finite false 12818842 (-18); S754_finite false 12810977 (-18); S754_finite false 12797870 (-18); S754_finite false 12858163 (-18); S754_finite false 12897485 (-18); S754_finite false 12936806 (-18); S754_finite false 13086228 (-18); S754_finite false 13157007 (-18); S754_finite false 13138657 (-18); S754_finite false 13018071 (-18); S754_finite false 13075743 (-18); S754_finite false 13157007 (-18); S754_finite false 13201572 (-18); S754_finite false 13256622 (-18); S754_finite false 13277594 (-18); S754_finite false 13219922 (-18); S754_finite false 13010207 (-18); S754_finite false 13193708 (-18); S754_finite false 13183222 (-18); S754_finite false 13151764 (-18); S754_finite false 12928942 (-18); S754_finite false 12713984 (-18); S754_finite false 12666824 (-18); S754_finite false 12268339 (-18); S754_finite false 12530483 (-18); S754_finite false 12685148 (-18); S754_finite false 12755927 (-18); S754_finite false 12790006 (-18)]].
Definition ex_atr14 : val := ser [S754_zero false; S754_zero false; S754_zero false; S754_zero false; S754_zero false; S754_zero false; S754_zero false; S754_zero false; S754_zero false; S754_zero false; S754_zero false; S754_zero false; S754_zero false; S754_finite false 9311355 (-24); S754_finite false 9963989 (-24); S754_finite false 9828093 (-24); S754_finite false 9544558 (-24); S754_finite false 10326376 (-24); S754_finite false 10366642 (-24); S754_finite false 10777684 (-24); S754_finite false 11312877 (-24); S754_finite false 11623255 (-24); S754_finite false 13009053 (-24); S754_finite false 13111394 (-24); S754_finite false 10143505 (-23); S754_finite false 10927001 (-23); S754_finite false 11578796 (-23); S754_finite false 11464711 (-23); S754_finite false 11208858 (-23); S754_finite false 11043602 (-23)].
Example conf_atr14 : close_to (call (AverageTrueRange 14) in_atr14 None true) ex_atr14 = true.
Proof. vm_compute. reflexivity. Qed.

Definition in_supertrend : val := Tup [ser [S754_finite false 9320530 (-17); S754_finite false 9341501 (-17); S754_finite false 9437184 (-17); S754_finite false 9420145 (-17); S754_finite false 9468641 (-17); S754_finite false 9447670 (-17); S754_finite false 9500099 (-17); S754_finite false 9410970 (-17); S754_finite false 9464709 (-17); S754_finite false 9450291 (-17); S754_finite false 9421455 (-17); S754_finite false 9346744 (-17); S754_finite false 9422766 (-17); S754_finite false 9328394 (-17); S754_finite false 9286451 (-17); S754_finite false 9338880 (-17); S754_finite false 9391309 (-17); S754_finite false 9323151 (-17); S754_finite false 9376891 (-17); S754_finite false 9372959 (-17); S754_finite false 9337569 (-17); S754_finite false 9161933 (-17); S754_finite false 9127854 (-17); S754_finite false 8831631 (-17); S754_finite false 8776581 (-17); S754_finite false 8874885 (-17); S754_finite false 8905032 (-17); S754_finite false 8912896 (-17); S754_finite false 9046589 (-17); S754_finite false 9011200 (-17); S754_finite false 8986296 (-17); S754_finite false 9017754 (-17); S754_finite false 9008579 (-17); S754_finite false 8964014 (-17); S754_finite false 9114747 (-17); S754_finite false 9080668 (-17); S754_finite false 8969257 (-17); S754_finite false 9178972 (-17); S754_finite false 9437184 (-17); S754_finite false 9403105 (-17); S754_finite false 9468641 (-17); S754_finite false 9378202 (-17); S754_finite false 9369027 (-17); S754_finite false 9296937 (-17); S754_finite false 9333637 (-17); S754_finite false 9417523 (-17); S754_finite false 9370337 (-17); S754_finite false 9366405 (-17); S754_finite false 9333637 (-17); S754_finite false 9307423 (-17); S754_finite false 9317908 (-17); S754_finite false 9320530 (-17); S754_finite false 9306112 (-17); S754_finite false 9340191 (-17); S754_finite false 9531556 (-17); S754_finite false 9620685 (-17); S754_finite false 9560392 (-17); S754_finite false 9620685 (-17); S754_finite false 9853993 (-17); S754_finite false 9851372 (-17); S754_finite false 9819914 (-17); S754_finite false 9848750 (-17); S754_finite false 9775350 (-17); S754_finite false 9838264 (-17); S754_finite false 9916908 (-17); S754_finite false 10068951 (-17); S754_finite false 10032251 (-17); S754_finite false 9987686 (-17); S754_finite false 10118758 (-17); S754_finite false 10192159 (-17); S754_finite false 10147594 (-17); S754_finite false 10165944 (-17); S754_finite false 10144973 (-17); S754_finite false 10192159 (-17); S754_finite false 10134487 (-17); S754_finite false 10042737 (-17); S754_finite false 9688842 (-17); S754_finite false 10047980 (-17); S754_finite false 9791078 (-17); S754_finite false 9552527 (-17); S754_finite false 9560392 (-17); S754_finite false 9429320 (-17); S754_finite false 9416212 (-17); S754_finite false 9486991 (-17); S754_finite false 9526313 (-17); S754_finite false 9521070 (-17); S754_finite false 9536799 (-17); S754_finite false 9620685 (-17); S754_finite false 9838264 (-17); S754_finite false 9767485 (-17); S754_finite false 9893315 (-17); S754_finite false 10092544 (-17); S754_finite false 10131866 (-17)]; ser [S754_finite false 9302180 (-17); S754_finite false 9299558 (-17); S754_finite false 9329705 (-17); S754_finite false 9323151 (-17); S754_finite false 9425388 (-17); S754_finite false 9400484 (-17); S754_finite false 9437184 (-17); S754_finite false 9370337 (-17); S754_finite false 9328394 (-17); S754_finite false 9380823 (-17); S754_finite false 9391309 (-17); S754_finite false 9338880 (-17); S754_finite false 9366405 (-17); S754_finite false 9275965 (-17); S754_finite false 9277276 (-17); S754_finite false 9268101 (-17); S754_finite false 9300869 (-17); S754_finite false 9300869 (-17); S754_finite false 9312666 (-17); S754_finite false 9316598 (-17); S754_finite false 9334948 (-17); S754_finite false 9011200 (-17); S754_finite false 8928625 (-17); S754_finite false 8813281 (-17); S754_finite false 8749056 (-17); S754_finite false 8739881 (-17); S754_finite false 8880128 (-17); S754_finite false 8849981 (-17); S754_finite false 8891924 (-17); S754_finite false 8983675 (-17); S754_finite false 8965325 (-17); S754_finite false 9012511 (-17); S754_finite false 8969257 (-17); S754_finite false 8922071 (-17); S754_finite false 9026929 (-17); S754_finite false 9067561 (-17); S754_finite false 8948285 (-17); S754_finite false 8986296 (-17); S754_finite false 9244508 (-17); S754_finite false 9389998 (-17); S754_finite false 9392620 (-17); S754_finite false 9374269 (-17); S754_finite false 9272033 (-17); S754_finite false 9282519 (-17); S754_finite false 9294316 (-17); S754_finite false 9313976 (-17); S754_finite false 9345434 (-17); S754_finite false 9319219 (-17); S754_finite false 9300869 (-17); S754_finite false 9299558 (-17); S754_finite false 9299558 (-17); S754_finite false 9296937 (-17); S754_finite false 9222226 (-17); S754_finite false 9287762 (-17); S754_finite false 9384755 (-17); S754_finite false 9544663 (-17); S754_finite false 9560392 (-17); S754_finite false 9557770 (-17); S754_finite false 9801564 (-17); S754_finite false 9772728 (-17); S754_finite false 9783214 (-17); S754_finite false 9793700 (-17); S754_finite false 9722921 (-17); S754_finite false 9775350 (-17); S754_finite false 9817293 (-17); S754_finite false 9851372 (-17); S754_finite false 9966715 (-17); S754_finite false 9935258 (-17); S754_finite false 9935258 (-17); S754_finite false 10097787 (-17); S754_finite false 10137108 (-17); S754_finite false 10092544 (-17); S754_finite false 10089923 (-17); S754_finite false 10147594 (-17); S754_finite false 10087301 (-17); S754_finite false 9971958 (-17); S754_finite false 9670492 (-17); S754_finite false 9678356 (-17); S754_finite false 9743892 (-17); S754_finite false 9355919 (-17); S754_finite false 9505341 (-17); S754_finite false 9424077 (-17); S754_finite false 9358541 (-17); S754_finite false 9466020 (-17); S754_finite false 9484370 (-17); S754_finite false 9521070 (-17); S754_finite false 9500099 (-17); S754_finite false 9458156 (-17); S754_finite false 9573499 (-17); S754_finite false 9746514 (-17); S754_finite false 9840886 (-17); S754_finite false 9909043 (-17); S754_finite false 10024387 (-17)]; ser [S754_finite false 9420145 (-17); S754_finite false 9407037 (-17); S754_finite false 9477816 (-17); S754_finite false 9472573 (-17); S754_finite false 9498788 (-17); S754_finite false 9469952 (-17); S754_finite false 9534177 (-17); S754_finite false 9548595 (-17); S754_finite false 9498788 (-17); S754_finite false 9564324 (-17); S754_finite false 9483059 (-17); S754_finite false 9421455 (-17); S754_finite false 9514516 (-17); S754_finite false 9422766 (-17); S754_finite false 9332326 (-17); S754_finite false 9383444 (-17); S754_finite false 9405727 (-17); S754_finite false 9441116 (-17); S754_finite false 9421455 (-17); S754_finite false 9389998 (-17); S754_finite false 9448980 (-17); S754_finite false 9194701 (-17); S754_finite false 9240576 (-17); S754_finite false 9089843 (-17); S754_finite false 8839496 (-17); S754_finite false 8969257 (-17); S754_finite false 8995471 (-17); S754_finite false 8950907 (-17); S754_finite false 9059697 (-17); S754_finite false 9114747 (-17); S754_finite false 9083290 (-17); S754_finite false 9081979 (-17); S754_finite false 9068872 (-17); S754_finite false 9051832 (-17); S754_finite false 9121300 (-17); S754_finite false 9201254 (-17); S754_finite false 9041347 (-17); S754_finite false 9186836 (-17); S754_finite false 9502720 (-17); S754_finite false 9500099 (-17); S754_finite false 9500099 (-17); S754_finite false 9486991 (-17); S754_finite false 9471263 (-17); S754_finite false 9374269 (-17); S754_finite false 9387377 (-17); S754_finite false 9448980 (-17); S754_finite false 9434563 (-17); S754_finite false 9417523 (-17); S754_finite false 9409659 (-17); S754_finite false 9370337 (-17); S754_finite false 9355919 (-17); S754_finite false 9362473 (-17); S754_finite false 9389998 (-17); S754_finite false 9379512 (-17); S754_finite false 9591849 (-17); S754_finite false 9649521 (-17); S754_finite false 9688842 (-17); S754_finite false 9646899 (-17); S754_finite false 9924772 (-17); S754_finite false 9885450 (-17); S754_finite false 9859236 (-17); S754_finite false 9880207 (-17); S754_finite false 9851372 (-17); S754_finite false 9877586 (-17); S754_finite false 9916908 (-17); S754_finite false 10113516 (-17); S754_finite false 10155459 (-17); S754_finite false 10074194 (-17); S754_finite false 10118758 (-17); S754_finite false 10215752 (-17); S754_finite false 10328474 (-17); S754_finite false 10186916 (-17); S754_finite false 10173809 (-17); S754_finite false 10299638 (-17); S754_finite false 10231480 (-17); S754_finite false 10152837 (-17); S754_finite false 9937879 (-17); S754_finite false 10082058 (-17); S754_finite false 10155459 (-17); S754_finite false 9746514 (-17); S754_finite false 9728164 (-17); S754_finite false 9576120 (-17); S754_finite false 9536799 (-17); S754_finite false 9583985 (-17); S754_finite false 9573499 (-17); S754_finite false 9620685 (-17); S754_finite false 9591849 (-17); S754_finite false 9680978 (-17); S754_finite false 9940500 (-17); S754_finite false 9874964 (-17); S754_finite false 9924772 (-17); S754_finite false 10152837 (-17); S754_finite false 10176430 (-17)]].
Definition ex_supertrend : val := ser [S754_zero false; S754_zero false; S754_zero false; S754_zero false; S754_zero false; S754_zero false; S754_zero false; S754_zero false; S754_zero false; S754_finite false 9082503 (-17); S754_finite false 9082503 (-17); S754_finite false 9082503 (-17); S754_finite false 9082503 (-17); S754_finite false 9082503 (-17); S754_finite false 9082503 (-17); S754_finite false 9082503 (-17); S754_finite false 9082503 (-17); S754_finite false 9082503 (-17); S754_finite false 9082503 (-17); S754_finite false 9082503 (-17); S754_finite false 9082503 (-17); S754_finite false 9082503 (-17); S754_finite false 9082503 (-17); S754_finite false 9461205 (-17); S754_finite false 9280087 (-17); S754_finite false 9280087 (-17); S754_finite false 9280087 (-17); S754_finite false 9280087 (-17); S754_finite false 9280087 (-17); S754_finite false 9280087 (-17); S754_finite false 9280087 (-17); S754_finite false 9280087 (-17); S754_finite false 9280087 (-17); S754_finite false 9280087 (-17); S754_finite false 9280087 (-17); S754_finite false 9280087 (-17); S754_finite false 9280087 (-17); S754_finite false 9280087 (-17); S754_finite false 8876413 (-17); S754_finite false 8964538 (-17); S754_finite false 8981656 (-17); S754_finite false 8981656 (-17); S754_finite false 8981656 (-17); S754_finite false 8981656 (-17); S754_finite false 8981656 (-17); S754_finite false 8981656 (-17); S754_finite false 8981656 (-17); S754_finite false 8981656 (-17); S754_finite false 8981656 (-17); S754_finite false 8981656 (-17); S754_finite false 8981656 (-17); S754_finite false 8991195 (-17); S754_finite false 8991195 (-17); S754_finite false 8991195 (-17); S754_finite false 9100490 (-17); S754_finite false 9212671 (-17); S754_finite false 9240103 (-17); S754_finite false 9240103 (-17); S754_finite false 9436421 (-17); S754_finite false 9436421 (-17); S754_finite false 9436421 (-17); S754_finite false 9451986 (-17); S754_finite false 9451986 (-17); S754_finite false 9451986 (-17); S754_finite false 9497757 (-17); S754_finite false 9571391 (-17); S754_finite false 9634517 (-17); S754_finite false 9634517 (-17); S754_finite false 9634517 (-17); S754_finite false 9727103 (-17); S754_finite false 9788682 (-17); S754_finite false 9788682 (-17); S754_finite false 9788682 (-17); S754_finite false 9807880 (-17); S754_finite false 9807880 (-17); S754_finite false 9807880 (-17); S754_finite false 10302804 (-17); S754_finite false 10302804 (-17); S754_finite false 10302804 (-17); S754_finite false 10254479 (-17); S754_finite false 10254479 (-17); S754_finite false 10175516 (-17); S754_finite false 10109023 (-17); S754_finite false 10109023 (-17); S754_finite false 10109023 (-17); S754_finite false 10109023 (-17); S754_finite false 10092659 (-17); S754_finite false 10092659 (-17); S754_finite false 10092659 (-17); S754_finite false 10092659 (-17); S754_finite false 10092659 (-17); S754_finite false 10092659 (-17); S754_finite false 9516171 (-17)].
Example conf_supertrend : close_to (call (Supertrend 10 (PyInt 3)) in_supertrend None true) ex_supertrend = true.
Proof. vm_compute. reflexivity. Qed.

Definition in_heikin : val := Tup [ser [S754_finite false 9091072 (-13); S754_finite false 9046016 (-13); S754_finite false 9037824 (-13); S754_finite false 9076736 (-13); S754_finite false 9074688 (-13); S754_finite false 9052160 (-13); S754_finite false 9043968 (-13); S754_finite false 9013248 (-13); S754_finite false 8919040 (-13); S754_finite false 8935424 (-13); S754_finite false 8908800 (-13); S754_finite false 8898560 (-13); S754_finite false 8921088 (-13); S754_finite false 9029632 (-13); S754_finite false 9072640 (-13); S754_finite false 9046016 (-13); S754_finite false 9056256 (-13); S754_finite false 9015296 (-13); S754_finite false 9027584 (-13); S754_finite false 9066496 (-13); S754_finite false 9091072 (-13); S754_finite false 9076736 (-13); S754_finite false 8966144 (-13); S754_finite false 8837120 (-13); S754_finite false 8962048 (-13); S754_finite false 8929280 (-13); S754_finite false 8902656 (-13); S754_finite false 8916992 (-13); S754_finite false 9046016 (-13); S754_finite false 9074688 (-13); S754_finite false 9103360 (-13); S754_finite false 9078784 (-13); S754_finite false 9086976 (-13); S754_finite false 9074688 (-13); S754_finite false 9097216 (-13); S754_finite false 9074688 (-13); S754_finite false 9095168 (-13); S754_finite false 9121792 (-13); S754_finite false 9050112 (-13); S754_finite false 9021440 (-13)]; ser [S754_finite false 9111552 (-13); S754_finite false 9072640 (-13); S754_finite false 9076736 (-13); S754_finite false 9084928 (-13); S754_finite false 9089024 (-13); S754_finite false 9068544 (-13); S754_finite false 9080832 (-13); S754_finite false 9017344 (-13); S754_finite false 8945664 (-13); S754_finite false 8972288 (-13); S754_finite false 8951808 (-13); S754_finite false 8925184 (-13); S754_finite false 8951808 (-13); S754_finite false 9105408 (-13); S754_finite false 9078784 (-13); S754_finite false 9056256 (-13); S754_finite false 9056256 (-13); S754_finite false 9033728 (-13); S754_finite false 9066496 (-13); S754_finite false 9091072 (-13); S754_finite false 9093120 (-13); S754_finite false 9095168 (-13); S754_finite false 8970240 (-13); S754_finite false 8996864 (-13); S754_finite false 8988672 (-13); S754_finite false 8982528 (-13); S754_finite false 8927232 (-13); S754_finite false 8982528 (-13); S754_finite false 9082880 (-13); S754_finite false 9107456 (-13); S754_finite false 9105408 (-13); S754_finite false 9138176 (-13); S754_finite false 9091072 (-13); S754_finite false 9091072 (-13); S754_finite false 9150464 (-13); S754_finite false 9099264 (-13); S754_finite false 9099264 (-13); S754_finite false 9166848 (-13); S754_finite false 9058304 (-13); S754_finite false 9066496 (-13)]; ser [S754_finite false 9039872 (-13); S754_finite false 9011200 (-13); S754_finite false 9023488 (-13); S754_finite false 9043968 (-13); S754_finite false 9017344 (-13); S754_finite false 9021440 (-13); S754_finite false 9035776 (-13); S754_finite false 8900608 (-13); S754_finite false 8912896 (-13); S754_finite false 8914944 (-13); S754_finite false 8890368 (-13); S754_finite false 8892416 (-13); S754_finite false 8914944 (-13); S754_finite false 9029632 (-13); S754_finite false 9041920 (-13); S754_finite false 9021440 (-13); S754_finite false 8970240 (-13); S754_finite false 9009152 (-13); S754_finite false 9017344 (-13); S754_finite false 9037824 (-13); S754_finite false 9064448 (-13); S754_finite false 9068544 (-13); S754_finite false 8871936 (-13); S754_finite false 8828928 (-13); S754_finite false 8914944 (-13); S754_finite false 8888320 (-13); S754_finite false 8888320 (-13); S754_finite false 8910848 (-13); S754_finite false 9029632 (-13); S754_finite false 9068544 (-13); S754_finite false 9064448 (-13); S754_finite false 9070592 (-13); S754_finite false 9046016 (-13); S754_finite false 9052160 (-13); S754_finite false 9054208 (-13); S754_finite false 9070592 (-13); S754_finite false 8994816 (-13); S754_finite false 9041920 (-13); S754_finite false 8972288 (-13); S754_finite false 8974336 (-13)]; ser [S754_finite false 9070592 (-13); S754_finite false 9039872 (-13); S754_finite false 9076736 (-13); S754_finite false 9082880 (-13); S754_finite false 9052160 (-13); S754_finite false 9043968 (-13); S754_finite false 9076736 (-13); S754_finite false 8921088 (-13); S754_finite false 8935424 (-13); S754_finite false 8955904 (-13); S754_finite false 8896512 (-13); S754_finite false 8921088 (-13); S754_finite false 8935424 (-13); S754_finite false 9074688 (-13); S754_finite false 9046016 (-13); S754_finite false 9043968 (-13); S754_finite false 9015296 (-13); S754_finite false 9029632 (-13); S754_finite false 9048064 (-13); S754_finite false 9091072 (-13); S754_finite false 9078784 (-13); S754_finite false 9084928 (-13); S754_finite false 8886272 (-13); S754_finite false 8962048 (-13); S754_finite false 8925184 (-13); S754_finite false 8904704 (-13); S754_finite false 8919040 (-13); S754_finite false 8968192 (-13); S754_finite false 9072640 (-13); S754_finite false 9103360 (-13); S754_finite false 9072640 (-13); S754_finite false 9089024 (-13); S754_finite false 9072640 (-13); S754_finite false 9076736 (-13); S754_finite false 9072640 (-13); S754_finite false 9095168 (-13); S754_finite false 9005056 (-13); S754_finite false 9050112 (-13); S754_finite false 9021440 (-13); S754_finite false 9052160 (-13)]].
Definition ex_heikin : val := Tup [ser [S754_finite false 9091072 (-13); S754_finite false 9080832 (-13); S754_finite false 9042944 (-13); S754_finite false 9057280 (-13); S754_finite false 9079808 (-13); S754_finite false 9063424 (-13); S754_finite false 9048064 (-13); S754_finite false 9060352 (-13); S754_finite false 8967168 (-13); S754_finite false 8927232 (-13); S754_finite false 8945664 (-13); S754_finite false 8902656 (-13); S754_finite false 8909824 (-13); S754_finite false 8928256 (-13); S754_finite false 9052160 (-13); S754_finite false 9059328 (-13); S754_finite false 9044992 (-13); S754_finite false 9035776 (-13); S754_finite false 9022464 (-13); S754_finite false 9037824 (-13); S754_finite false 9078784 (-13); S754_finite false 9084928 (-13); S754_finite false 9080832 (-13); S754_finite false 8926208 (-13); S754_finite false 8899584 (-13); S754_finite false 8943616 (-13); S754_finite false 8916992 (-13); S754_finite false 8910848 (-13); S754_finite false 8942592 (-13); S754_finite false 9059328 (-13); S754_finite false 9089024 (-13); S754_finite false 9088000 (-13); S754_finite false 9083904 (-13); S754_finite false 9079808 (-13); S754_finite false 9075712 (-13); S754_finite false 9084928 (-13); S754_finite false 9084928 (-13); S754_finite false 9050112 (-13); S754_finite false 9085952 (-13); S754_finite false 9035776 (-13)]; ser [S754_finite false 9111552 (-13); S754_finite false 9080832 (-13); S754_finite false 9076736 (-13); S754_finite false 9084928 (-13); S754_finite false 9089024 (-13); S754_finite false 9068544 (-13); S754_finite false 9080832 (-13); S754_finite false 9060352 (-13); S754_finite false 8967168 (-13); S754_finite false 8972288 (-13); S754_finite false 8951808 (-13); S754_finite false 8925184 (-13); S754_finite false 8951808 (-13); S754_finite false 9105408 (-13); S754_finite false 9078784 (-13); S754_finite false 9059328 (-13); S754_finite false 9056256 (-13); S754_finite false 9035776 (-13); S754_finite false 9066496 (-13); S754_finite false 9091072 (-13); S754_finite false 9093120 (-13); S754_finite false 9095168 (-13); S754_finite false 9080832 (-13); S754_finite false 8996864 (-13); S754_finite false 8988672 (-13); S754_finite false 8982528 (-13); S754_finite false 8927232 (-13); S754_finite false 8982528 (-13); S754_finite false 9082880 (-13); S754_finite false 9107456 (-13); S754_finite false 9105408 (-13); S754_finite false 9138176 (-13); S754_finite false 9091072 (-13); S754_finite false 9091072 (-13); S754_finite false 9150464 (-13); S754_finite false 9099264 (-13); S754_finite false 9099264 (-13); S754_finite false 9166848 (-13); S754_finite false 9085952 (-13); S754_finite false 9066496 (-13)]; ser [S754_finite false 9039872 (-13); S754_finite false 9011200 (-13); S754_finite false 9023488 (-13); S754_finite false 9043968 (-13); S754_finite false 9017344 (-13); S754_finite false 9021440 (-13); S754_finite false 9035776 (-13); S754_finite false 8900608 (-13); S754_finite false 8912896 (-13); S754_finite false 8914944 (-13); S754_finite false 8890368 (-13); S754_finite false 8892416 (-13); S754_finite false 8909824 (-13); S754_finite false 8928256 (-13); S754_finite false 9041920 (-13); S754_finite false 9021440 (-13); S754_finite false 8970240 (-13); S754_finite false 9009152 (-13); S754_finite false 9017344 (-13); S754_finite false 9037824 (-13); S754_finite false 9064448 (-13); S754_finite false 9068544 (-13); S754_finite false 8871936 (-13); S754_finite false 8828928 (-13); S754_finite false 8899584 (-13); S754_finite false 8888320 (-13); S754_finite false 8888320 (-13); S754_finite false 8910848 (-13); S754_finite false 8942592 (-13); S754_finite false 9059328 (-13); S754_finite false 9064448 (-13); S754_finite false 9070592 (-13); S754_finite false 9046016 (-13); S754_finite false 9052160 (-13); S754_finite false 9054208 (-13); S754_finite false 9070592 (-13); S754_finite false 8994816 (-13); S754_finite false 9041920 (-13); S754_finite false 8972288 (-13); S754_finite false 8974336 (-13)]; ser [S754_finite false 9070592 (-13); S754_finite false 9042432 (-13); S754_finite false 9053696 (-13); S754_finite false 9072128 (-13); S754_finite false 9058304 (-13); S754_finite false 9046528 (-13); S754_finite false 9059328 (-13); S754_finite false 8963072 (-13); S754_finite false 8928256 (-13); S754_finite false 8944640 (-13); S754_finite false 8911872 (-13); S754_finite false 8909312 (-13); S754_finite false 8930816 (-13); S754_finite false 9059840 (-13); S754_finite false 9059840 (-13); S754_finite false 9041920 (-13); S754_finite false 9024512 (-13); S754_finite false 9021952 (-13); S754_finite false 9039872 (-13); S754_finite false 9071616 (-13); S754_finite false 9081856 (-13); S754_finite false 9081344 (-13); S754_finite false 8923648 (-13); S754_finite false 8906240 (-13); S754_finite false 8947712 (-13); S754_finite false 8926208 (-13); S754_finite false 8909312 (-13); S754_finite false 8944640 (-13); S754_finite false 9057792 (-13); S754_finite false 9088512 (-13); S754_finite false 9086464 (-13); S754_finite false 9094144 (-13); S754_finite false 9074176 (-13); S754_finite false 9073664 (-13); S754_finite false 9093632 (-13); S754_finite false 9084928 (-13); S754_finite false 9048576 (-13); S754_finite false 9095168 (-13); S754_finite false 9025536 (-13); S754_finite false 9028608 (-13)]].
Example conf_heikin : close_to (call (HeikinAshi) in_heikin None true) ex_heikin = true.
Proof. vm_compute. reflexivity. Qed.

Definition in_drawdown : val := ser [S754_finite false 13107200 (-17); S754_finite false 12490638 (-17); S754_finite false 12654344 (-17); S754_finite false 13853938 (-17); S754_finite false 13619832 (-17); S754_finite false 14249657 (-17); S754_finite false 14090663 (-17); S754_finite false 13666573 (-17); S754_finite false 13862429 (-17); S754_finite false 15044602 (-17); S754_finite false 15064550 (-17); S754_finite false 15627399 (-17); S754_finite false 16668817 (-17); S754_finite false 16775045 (-17); S754_finite false 16198716 (-17); S754_finite false 15996570 (-17); S754_finite false 15652835 (-17); S754_finite false 14588771 (-17); S754_finite false 14806060 (-17); S754_finite false 14187190 (-17); S754_finite false 14325808 (-17); S754_finite false 14426923 (-17); S754_finite false 13423400 (-17); S754_finite false 14026540 (-17); S754_finite false 13967097 (-17); S754_finite false 13547851 (-17); S754_finite false 13450060 (-17); S754_finite false 13669881 (-17); S754_finite false 13416835 (-17); S754_finite false 12601968 (-17); S754_finite false 12354876 (-17); S754_finite false 13118137 (-17); S754_finite false 12368427 (-17); S754_finite false 12956484 (-17); S754_finite false 12378081 (-17); S754_finite false 12537858 (-17); S754_finite false 13622083 (-17); S754_finite false 13139687 (-17); S754_finite false 13377406 (-17); S754_finite false 14032394 (-17); S754_finite false 13754312 (-17); S754_finite false 13361716 (-17); S754_finite false 12744449 (-17); S754_finite false 12879103 (-17); S754_finite false 13758783 (-17); S754_finite false 14459780 (-17); S754_finite false 14712964 (-17); S754_finite false 15135880 (-17); S754_finite false 15333508 (-17); S754_finite false 14920905 (-17); S754_finite false 15411865 (-17); S754_finite false 15669239 (-17); S754_finite false 15478584 (-17); S754_finite false 15167428 (-17); S754_finite false 14633629 (-17); S754_finite false 15378873 (-17); S754_finite false 15837194 (-17); S754_finite false 16170460 (-17); S754_finite false 16079119 (-17); S754_finite false 16072417 (-17); S754_finite false 16200071 (-17); S754_finite false 15081499 (-17); S754_finite false 15515892 (-17); S754_finite false 14295747 (-17); S754_finite false 14130529 (-17); S754_finite false 14994598 (-17); S754_finite false 16571677 (-17); S754_finite false 16085005 (-17); S754_finite false 15598023 (-17); S754_finite false 15356869 (-17); S754_finite false 8480322 (-16); S754_finite false 16651696 (-17); S754_finite false 8613903 (-16); S754_finite false 8855824 (-16); S754_finite false 9350405 (-16); S754_finite false 9513282 (-16); S754_finite false 9361282 (-16); S754_finite false 9291837 (-16); S754_finite false 9373300 (-16); S754_finite false 9622889 (-16); S754_finite false 9767899 (-16); S754_finite false 9902538 (-16); S754_finite false 10693426 (-16); S754_finite false 10516082 (-16); S754_finite false 10408723 (-16); S754_finite false 10541466 (-16); S754_finite false 10700225 (-16); S754_finite false 9907425 (-16); S754_finite false 9306798 (-16); S754_finite false 9544569 (-16); S754_finite false 9068177 (-16); S754_finite false 9485227 (-16); S754_finite false 9407932 (-16); S754_finite false 9117539 (-16); S754_finite false 8585277 (-16); S754_finite false 8938710 (-16); S754_finite false 9488874 (-16); S754_finite false 9320928 (-16); S754_finite false 9289349 (-16); S754_finite false 9770878 (-16); S754_finite false 10069056 (-16); S754_finite false 9587400 (-16); S754_finite false 10116081 (-16); S754_finite false 9627437 (-16); S754_finite false 9211195 (-16); S754_finite false 9320819 (-16); S754_finite false 8682299 (-16); S754_finite false 8457721 (-16); S754_finite false 15598039 (-17); S754_finite false 14617012 (-17); S754_finite false 14646934 (-17); S754_finite false 16369355 (-17); S754_finite false 15422289 (-17); S754_finite false 14679233 (-17); S754_finite false 14843285 (-17); S754_finite false 14662823 (-17); S754_finite false 14311738 (-17); S754_finite false 14649347 (-17); S754_finite false 15108329 (-17); S754_finite false 15140171 (-17); S754_finite false 14365443 (-17); S754_finite false 13050615 (-17); S754_finite false 12447100 (-17); S754_finite false 11775071 (-17); S754_finite false 11478857 (-17); S754_finite false 12579989 (-17); S754_finite false 12856393 (-17); S754_finite false 13686604 (-17); S754_finite false 14177378 (-17); S754_finite false 14423883 (-17); S754_finite false 14557332 (-17); S754_finite false 13904385 (-17); S754_finite false 14047282 (-17); S754_finite false 15109601 (-17); S754_finite false 15136858 (-17); S754_finite false 14289866 (-17); S754_finite false 13949202 (-17); S754_finite false 13682893 (-17); S754_finite false 15049612 (-17); S754_finite false 15019772 (-17); S754_finite false 15331434 (-17); S754_finite false 15668522 (-17); S754_finite false 15038390 (-17); S754_finite false 13783223 (-17); S754_finite false 14110842 (-17); S754_finite false 13668604 (-17); S754_finite false 12951972 (-17); S754_finite false 13131016 (-17); S754_finite false 13363987 (-17); S754_finite false 13484775 (-17)].
Definition ex_drawdown : val := Tup [ser [S754_zero false; S754_finite true 12627188 (-28); S754_finite true 9274491 (-28); S754_zero false; S754_finite true 9072092 (-29); S754_zero false; S754_finite true 11980537 (-30); S754_finite true 10984157 (-28); S754_finite true 14589229 (-29); S754_zero false; S754_zero false; S754_zero false; S754_zero false; S754_zero false; S754_finite true 9222462 (-28); S754_finite true 12457217 (-28); S754_finite true 8978842 (-27); S754_finite true 8746227 (-26); S754_finite true 15753916 (-27); S754_finite true 10352760 (-26); S754_finite true 9798218 (-26); S754_finite true 9393706 (-26); S754_finite true 13408316 (-26); S754_finite true 10995443 (-26); S754_finite true 11233246 (-26); S754_finite true 12910448 (-26); S754_finite true 13301663 (-26); S754_finite true 12422263 (-26); S754_finite true 13434577 (-26); S754_finite true 16694470 (-26); S754_finite true 8841481 (-25); S754_finite true 14629525 (-26); S754_finite true 8814377 (-25); S754_finite true 15276221 (-26); S754_finite true 8795066 (-25); S754_finite true 8475470 (-25); S754_finite true 12613481 (-26); S754_finite true 14543312 (-26); S754_finite true 13592316 (-26); S754_finite true 10972023 (-26); S754_finite true 12084494 (-26); S754_finite true 13655082 (-26); S754_finite true 16124472 (-26); S754_finite true 15585785 (-26); S754_finite true 12066610 (-26); S754_finite true 9262261 (-26); S754_finite true 16498783 (-27); S754_finite true 13115017 (-27); S754_finite true 11533788 (-27); S754_finite true 14835038 (-27); S754_finite true 10906850 (-27); S754_finite true 8847596 (-27); S754_finite true 10373033 (-27); S754_finite true 12862602 (-27); S754_finite true 8566772 (-26); S754_finite true 11170825 (-27); S754_finite true 15007564 (-28); S754_finite true 9674613 (-28); S754_finite true 11136258 (-28); S754_finite true 11243504 (-28); S754_finite true 9200771 (-28); S754_finite true 13550120 (-27); S754_finite true 10074530 (-27); S754_finite true 9918475 (-26); S754_finite true 10579431 (-26); S754_finite true 14245418 (-27); S754_finite true 13017269 (-30); S754_finite true 11042075 (-28); S754_finite true 9417397 (-27); S754_finite true 11346878 (-27); S754_zero false; S754_finite true 9779391 (-29); S754_zero false; S754_zero false; S754_zero false; S754_zero false; S754_finite true 8577981 (-29); S754_finite true 12497032 (-29); S754_finite true 15799447 (-30); S754_zero false; S754_zero false; S754_zero false; S754_zero false; S754_finite true 8903670 (-29); S754_finite true 14293725 (-29); S754_finite true 15258482 (-30); S754_zero false; S754_finite true 9944455 (-27); S754_finite true 8739194 (-26); S754_finite true 14495916 (-27); S754_finite true 10235758 (-26); S754_finite true 15240265 (-27); S754_finite true 16209812 (-27); S754_finite true 9926169 (-26); S754_finite true 13264371 (-26); S754_finite true 11047742 (-26); S754_finite true 15194528 (-27); S754_finite true 8650575 (-26); S754_finite true 8848627 (-26); S754_finite true 11657215 (-27); S754_finite true 15834068 (-28); S754_finite true 13958671 (-27); S754_finite true 14654366 (-28); S754_finite true 13456463 (-27); S754_finite true 9338785 (-26); S754_finite true 8651257 (-26); S754_finite true 12655875 (-26); S754_finite true 14064367 (-26); S754_finite true 9097782 (-25); S754_finite true 10635964 (-25); S754_finite true 10589048 (-25); S754_finite true 15776823 (-26); S754_finite true 9373345 (-25); S754_finite true 10538406 (-25); S754_finite true 10281184 (-25); S754_finite true 10564136 (-25); S754_finite true 11114614 (-25); S754_finite true 10585265 (-25); S754_finite true 9865614 (-25); S754_finite true 9815687 (-25); S754_finite true 11030408 (-25); S754_finite true 13091967 (-25); S754_finite true 14038237 (-25); S754_finite true 15091931 (-25); S754_finite true 15556375 (-25); S754_finite true 13829876 (-25); S754_finite true 13396494 (-25); S754_finite true 12094780 (-25); S754_finite true 11325280 (-25); S754_finite true 10938777 (-25); S754_finite true 10729538 (-25); S754_finite true 11753314 (-25); S754_finite true 11529262 (-25); S754_finite true 9863619 (-25); S754_finite true 9820881 (-25); S754_finite true 11148907 (-25); S754_finite true 11683044 (-25); S754_finite true 12100598 (-25); S754_finite true 9957678 (-25); S754_finite true 10004465 (-25); S754_finite true 9515799 (-25); S754_finite true 8987269 (-25); S754_finite true 9975273 (-25); S754_finite true 11943287 (-25); S754_finite true 11429604 (-25); S754_finite true 12123003 (-25); S754_finite true 13246633 (-25); S754_finite true 12965904 (-25); S754_finite true 12600621 (-25); S754_finite true 12411233 (-25)]; seri [(0); (1); (2); (0); (1); (0); (1); (2); (3); (0); (0); (0); (0); (0); (1); (2); (3); (4); (5); (6); (7); (8); (9); (10); (11); (12); (13); (14); (15); (16); (17); (18); (19); (20); (21); (22); (23); (24); (25); (26); (27); (28); (29); (30); (31); (32); (33); (34); (35); (36); (37); (38); (39); (40); (41); (42); (43); (44); (45); (46); (47); (48); (49); (50); (51); (52); (53); (54); (55); (56); (0); (1); (0); (0); (0); (0); (1); (2); (3); (0); (0); (0); (0); (1); (2); (3); (0); (1); (2); (3); (4); (5); (6); (7); (8); (9); (10); (11); (12); (13); (14); (15); (16); (17); (18); (19); (20); (21); (22); (23); (24); (25); (26); (27); (28); (29); (30); (31); (32); (33); (34); (35); (36); (37); (38); (39); (40); (41); (42); (43); (44); (45); (46); (47); (48); (49); (50); (51); (52); (53); (54); (55); (56); (57); (58); (59); (60); (61); (62); (63)]].
Example conf_drawdown : close_to (call (Drawdown) in_drawdown None true) ex_drawdown = true.
Proof. vm_compute. reflexivity. Qed.

Definition in_single_dim_zero_rfr : val := Tup [ser [S754_zero false; S754_finite true 10737418 (-27); S754_finite true 14763950 (-27); S754_finite false 12079596 (-27); S754_finite false 10737418 (-30); S754_finite true 13421773 (-28); S754_finite false 13421773 (-27); S754_finite false 13421773 (-26); S754_finite true 12750684 (-26); S754_finite false 13421773 (-28); S754_finite true 9395241 (-26); S754_finite false 16106127 (-26); S754_finite true 10737418 (-30); S754_finite false 15435039 (-26); S754_finite false 12582912 (-24); S754_finite false 11576279 (-24); S754_finite true 10066330 (-25); S754_finite false 10737418 (-27); S754_finite false 16106127 (-27); S754_finite true 10737418 (-25); S754_finite false 12750684 (-26); S754_finite false 13421773 (-28); S754_finite true 14763950 (-26); S754_finite true 15435039 (-25); S754_finite true 12079596 (-27); S754_finite false 15435039 (-26); S754_finite true 10905190 (-24); S754_finite false 14092861 (-25); S754_finite true 11744051 (-24); S754_finite true 15435039 (-26)]; ser [S754_zero false; S754_zero false; S754_zero false; S754_zero false; S754_zero false; S754_zero false; S754_zero false; S754_zero false; S754_zero false; S754_zero false; S754_zero false; S754_zero false; S754_zero false; S754_zero false; S754_zero false; S754_zero false; S754_zero false; S754_zero false; S754_zero false; S754_zero false; S754_zero false; S754_zero false; S754_zero false; S754_zero false; S754_zero false; S754_zero false; S754_zero false; S754_zero false; S754_zero false; S754_zero false]].
Definition ex_single_dim_zero_rfr : val := ser [S754_zero false; S754_finite true 8388608 (-23); S754_finite true 11443072 (-23); S754_finite true 10807155 (-25); S754_finite true 8527930 (-25); S754_finite true 11908941 (-25); S754_finite true 10278925 (-27); S754_finite false 13770448 (-26); S754_finite true 15817711 (-29); S754_finite false 9894662 (-29); S754_finite true 13812922 (-27); S754_finite false 9878569 (-26); S754_finite false 15551208 (-26); S754_finite false 10386851 (-25); S754_finite false 15595533 (-25); S754_finite false 10805102 (-24); S754_finite false 15333639 (-25); S754_finite false 14113907 (-25); S754_finite false 9119403 (-24); S754_finite false 12966507 (-25); S754_finite false 16746844 (-25); S754_finite false 14810131 (-25); S754_finite false 12148669 (-25); S754_finite false 9994232 (-26); S754_finite true 11095130 (-27); S754_finite true 10584740 (-25); S754_finite true 12767257 (-25); S754_finite true 15324107 (-26); S754_finite true 14366078 (-25); S754_finite true 13649111 (-25)].
Example conf_single_dim_zero_rfr : close_to (call (SharpeRatio 10) in_single_dim_zero_rfr None true) ex_single_dim_zero_rfr = true.
Proof. vm_compute. reflexivity. Qed.

Definition in_single_dim_small_rfr : val := Tup [ser [S754_zero false; S754_finite true 10737418 (-27); S754_finite true 14763950 (-27); S754_finite false 12079596 (-27); S754_finite false 10737418 (-30); S754_finite true 13421773 (-28); S754_finite false 13421773 (-27); S754_finite false 13421773 (-26); S754_finite true 12750684 (-26); S754_finite false 13421773 (-28); S754_finite true 9395241 (-26); S754_finite false 16106127 (-26); S754_finite true 10737418 (-30); S754_finite false 15435039 (-26); S754_finite false 12582912 (-24); S754_finite false 11576279 (-24); S754_finite true 10066330 (-25); S754_finite false 10737418 (-27); S754_finite false 16106127 (-27); S754_finite true 10737418 (-25); S754_finite false 12750684 (-26); S754_finite false 13421773 (-28); S754_finite true 14763950 (-26); S754_finite true 15435039 (-25); S754_finite true 12079596 (-27); S754_finite false 15435039 (-26); S754_finite true 10905190 (-24); S754_finite false 14092861 (-25); S754_finite true 11744051 (-24); S754_finite true 15435039 (-26)]; ser [S754_zero false; S754_finite false 8589935 (-32); S754_finite false 8589935 (-33); S754_zero false; S754_finite true 8589935 (-33); S754_finite true 8589935 (-32); S754_finite true 12884902 (-32); S754_finite true 8589935 (-31); S754_finite true 10737418 (-31); S754_finite true 12884902 (-31); S754_finite true 15032386 (-31); S754_finite true 8589935 (-30); S754_finite true 9663676 (-30); S754_finite true 10737418 (-30); S754_finite true 11811160 (-30); S754_finite true 12884902 (-30); S754_finite true 13958644 (-30); S754_finite true 15032386 (-30); S754_finite true 16106127 (-30); S754_finite true 8589935 (-29); S754_finite true 9126806 (-29); S754_finite true 9663676 (-29); S754_finite true 10200547 (-29); S754_finite true 10737418 (-29); S754_finite true 11274289 (-29); S754_finite true 11811160 (-29); S754_finite true 12348031 (-29); S754_finite true 12884902 (-29); S754_finite true 13421773 (-29); S754_finite true 13958644 (-29)]].
Definition ex_single_dim_small_rfr : val := ser [S754_zero false; S754_finite true 8388608 (-23); S754_finite true 11480835 (-23); S754_finite true 11041761 (-25); S754_finite true 8632969 (-25); S754_finite true 11824885 (-25); S754_finite true 9386908 (-27); S754_finite false 14159433 (-26); S754_finite true 9458496 (-29); S754_finite false 9350371 (-28); S754_finite true 10935934 (-27); S754_finite false 11560368 (-26); S754_finite false 8947218 (-25); S754_finite false 11620324 (-25); S754_finite false 16350398 (-25); S754_finite false 11154974 (-24); S754_finite false 16146643 (-25); S754_finite false 15031104 (-25); S754_finite false 9668760 (-24); S754_finite false 14100295 (-25); S754_finite false 9024743 (-24); S754_finite false 16206795 (-25); S754_finite false 13598796 (-25); S754_finite false 12730478 (-26); S754_finite true 16292372 (-29); S754_finite true 16009952 (-26); S754_finite true 10605445 (-25); S754_finite true 11230612 (-26); S754_finite true 12482763 (-25); S754_finite true 11666327 (-25)].
Example conf_single_dim_small_rfr : close_to (call (SharpeRatio 10) in_single_dim_small_rfr None true) ex_single_dim_small_rfr = true.
Proof. vm_compute. reflexivity. Qed.

Definition in_skewness10 : val := ser [S754_zero false; S754_finite true 10737418 (-27); S754_finite true 14763950 (-27); S754_finite false 12079596 (-27); S754_finite false 10737418 (-30); S754_finite true 13421773 (-28); S754_finite false 13421773 (-27); S754_finite false 13421773 (-26); S754_finite true 12750684 (-26); S754_finite false 13421773 (-28); S754_finite true 9395241 (-26); S754_finite false 16106127 (-26); S754_finite true 10737418 (-30); S754_finite false 15435039 (-26); S754_finite false 12582912 (-24); S754_finite false 11576279 (-24); S754_finite true 10066330 (-25); S754_finite false 10737418 (-27); S754_finite false 16106127 (-27); S754_finite true 10737418 (-25); S754_finite false 12750684 (-26); S754_finite false 13421773 (-28); S754_finite true 14763950 (-26); S754_finite true 15435039 (-25); S754_finite true 12079596 (-27); S754_finite false 15435039 (-26); S754_finite true 10905190 (-24); S754_finite false 14092861 (-25); S754_finite true 11744051 (-24); S754_finite true 15435039 (-26)].
Definition ex_skewness10 : val := ser [S754_zero false; S754_zero false; S754_finite false 16515774 (-25); S754_finite false 13560513 (-25); S754_finite false 10219008 (-26); S754_finite false 12862356 (-25); S754_finite false 9955824 (-26); S754_finite false 14214364 (-25); S754_finite false 10582900 (-26); S754_finite false 13500971 (-29); S754_finite false 13528454 (-26); S754_finite false 15668716 (-28); S754_finite true 8684923 (-27); S754_finite true 9969403 (-27); S754_finite false 10388610 (-23); S754_finite false 12232940 (-24); S754_finite false 9495506 (-24); S754_finite false 11270413 (-24); S754_finite false 10307303 (-24); S754_finite false 8395840 (-24); S754_finite false 10587377 (-25); S754_finite false 16053196 (-25); S754_finite false 16488957 (-25); S754_finite false 9258637 (-24); S754_finite false 13296587 (-24); S754_finite true 8699997 (-25); S754_finite true 9702906 (-24); S754_finite true 9595049 (-25); S754_finite true 10848453 (-28); S754_finite true 14483591 (-27)].
Example conf_skewness10 : close_to (call (Skewness 10) in_skewness10 None true) ex_skewness10 = true.
Proof. vm_compute. reflexivity. Qed.

Definition in_volatility5 : val := ser [S754_finite false 11675894 (-19); S754_finite false 11633951 (-19); S754_finite false 11576279 (-19); S754_finite false 11623465 (-19); S754_finite false 11628708 (-19); S754_finite false 11602493 (-19); S754_finite false 11654922 (-19); S754_finite false 11759780 (-19); S754_finite false 11660165 (-19); S754_finite false 11686380 (-19); S754_finite false 11612979 (-19); S754_finite false 11738808 (-19); S754_finite false 11733565 (-19); S754_finite false 11854152 (-19); S754_finite false 12247368 (-19); S754_finite false 12609126 (-19); S754_finite false 12451840 (-19); S754_finite false 12493783 (-19); S754_finite false 12556698 (-19); S754_finite false 12388925 (-19); S754_finite false 12488540 (-19); S754_finite false 12514755 (-19); S754_finite false 12399411 (-19); S754_finite false 12158239 (-19); S754_finite false 12111053 (-19); S754_finite false 12231639 (-19); S754_finite false 11890852 (-19); S754_finite false 12111053 (-19); S754_finite false 11744051 (-19); S754_finite false 11623465 (-19)].
Definition ex_volatility5 : val := ser [S754_zero false; S754_zero false; S754_zero false; S754_zero false; S754_zero false; S754_finite false 13789018 (-32); S754_finite false 15630171 (-32); S754_finite false 16402439 (-32); S754_finite false 12749049 (-31); S754_finite false 12818759 (-31); S754_finite false 14163411 (-31); S754_finite false 16722403 (-31); S754_finite false 14642440 (-31); S754_finite false 13956214 (-31); S754_finite false 14291727 (-30); S754_finite false 13398950 (-30); S754_finite false 9234010 (-29); S754_finite false 8975533 (-29); S754_finite false 9121721 (-29); S754_finite false 16606651 (-30); S754_finite false 9849280 (-30); S754_finite false 16096878 (-31); S754_finite false 8969907 (-30); S754_finite false 10876469 (-30); S754_finite false 10212160 (-30); S754_finite false 10767550 (-30); S754_finite false 14083774 (-30); S754_finite false 9371359 (-29); S754_finite false 10616029 (-29); S754_finite false 10599581 (-29)].
Example conf_volatility5 : close_to (call (Volatility 5 1) in_volatility5 None true) ex_volatility5 = true.
Proof. vm_compute. reflexivity. Qed.

(** DISAGREEMENT: the sheet expects 0 at position 33 where the code (and the model)
    emits -1 (property C27); the expected value below is edited there. *)
Definition in_macdsignal : val := ser [S754_finite false 15072952 (-15); S754_finite false 14707917 (-15); S754_finite false 14616494 (-15); S754_finite false 14772142 (-15); S754_finite false 14509670 (-15); S754_finite false 14711849 (-15); S754_finite false 14567670 (-15); S754_finite false 14463795 (-15); S754_finite false 14105641 (-15); S754_finite false 13764198 (-15); S754_finite false 14127596 (-15); S754_finite false 13948027 (-15); S754_finite false 14109245 (-15); S754_finite false 14146601 (-15); S754_finite false 14348124 (-15); S754_finite false 14038794 (-15); S754_finite false 14036173 (-15); S754_finite false 14172160 (-15); S754_finite false 14537851 (-15); S754_finite false 14933033 (-15); S754_finite false 14892728 (-15); S754_finite false 14813757 (-15); S754_finite false 14835057 (-15); S754_finite false 15135867 (-15); S754_finite false 15190589 (-15); S754_finite false 15110636 (-15); S754_finite false 14813757 (-15); S754_finite false 14505083 (-15); S754_finite false 14054523 (-15); S754_finite false 14083359 (-15); S754_finite false 14155448 (-15); S754_finite false 14015529 (-15); S754_finite false 13867418 (-15); S754_finite false 13966049 (-15); S754_finite false 13991281 (-15); S754_finite false 14276690 (-15); S754_finite false 14232125 (-15); S754_finite false 14083686 (-15); S754_finite false 13757645 (-15); S754_finite false 13967032 (-15); S754_finite false 13198950 (-15); S754_finite false 12846694 (-15); S754_finite false 12796887 (-15); S754_finite false 13063619 (-15); S754_finite false 13308068 (-15); S754_finite false 13286113 (-15); S754_finite false 13381796 (-15); S754_finite false 13670810 (-15); S754_finite false 14094172 (-15); S754_finite false 14509015 (-15); S754_finite false 14394655 (-15); S754_finite false 14598799 (-15); S754_finite false 14744945 (-15); S754_finite false 15096545 (-15); S754_finite false 15029371 (-15); S754_finite false 15199109 (-15); S754_finite false 14967439 (-15); S754_finite false 14842921 (-15); S754_finite false 14900920 (-15); S754_finite false 14544404 (-15); S754_finite false 14052557 (-15); S754_finite false 14240317 (-15); S754_finite false 14197064 (-15); S754_finite false 14513930 (-15); S754_finite false 14406779 (-15); S754_finite false 14462157 (-15)].
Definition ex_macdsignal : val := seri [(0); (0); (0); (0); (0); (0); (0); (0); (0); (0); (0); (0); (0); (0); (0); (0); (0); (0); (0); (0); (0); (0); (0); (0); (0); (0); (0); (0); (0); (0); (0); (0); (0); (-1); (0); (0); (0); (0); (0); (0); (0); (0); (0); (0); (0); (0); (0); (0); (1); (0); (0); (0); (0); (0); (0); (0); (0); (0); (0); (0); (0); (-1); (0); (0); (0); (0)].
Example conf_macdsignal : close_to (call (MovingAverageConvergenceDivergenceSignal 26 12 9) in_macdsignal None true) ex_macdsignal = true.
Proof. vm_compute. reflexivity. Qed.

Definition in_crossoversignal : val := ser [S754_finite false 16357786 (-22); S754_finite false 10066330 (-21); S754_finite false 9437184 (-21); S754_finite false 16357786 (-22); S754_finite false 15938355 (-22); S754_finite false 15099494 (-22); S754_finite false 14260634 (-22); S754_finite false 10905190 (-21); S754_finite false 9017754 (-21); S754_finite false 12792627 (-21); S754_finite false 8808038 (-21); S754_finite false 12582912 (-22); S754_finite false 14260634 (-22); S754_finite false 15099494 (-22); S754_finite false 15938355 (-22); S754_finite false 8598323 (-21); S754_finite false 11324621 (-21); S754_finite false 10905190 (-21); S754_finite false 12163482 (-21)].
Definition ex_crossoversignal : val := seri [(0); (0); (0); (0); (0); (0); (0); (0); (0); (0); (0); (0); (0); (-1); (0); (0); (0); (1); (0)].
Example conf_crossoversignal : close_to (call (SimpleMovingAverageCrossoverSignal 10 4) in_crossoversignal None true) ex_crossoversignal = true.
Proof. vm_compute. reflexivity. Qed.

Definition in_zerocrossover : val := ser [S754_finite true 10712429 (-21); S754_finite true 9494844 (-21); S754_finite true 14209359 (-22); S754_finite true 10872779 (-22); S754_finite true 9439756 (-22); S754_finite true 10704229 (-22); S754_finite true 9195016 (-22); S754_finite true 13990087 (-22); S754_finite true 9528284 (-21); S754_finite true 10756767 (-21); S754_finite true 9785689 (-21); S754_finite true 15111158 (-22); S754_finite true 11448196 (-22); S754_finite true 14979857 (-23); S754_finite true 15661919 (-25); S754_finite false 10745714 (-23); S754_finite false 13364540 (-22); S754_finite false 8499149 (-21); S754_finite false 10136562 (-21); S754_finite false 11315661 (-21); S754_finite false 12959044 (-21); S754_finite false 13067331 (-21); S754_finite false 13145619 (-21); S754_finite false 11531555 (-21); S754_finite false 9352730 (-21); S754_finite false 15316573 (-22); S754_finite false 9291595 (-22); S754_finite false 12856771 (-26); S754_finite true 12934744 (-24); S754_finite true 12298613 (-23); S754_finite true 10506728 (-23); S754_finite true 10934118 (-23); S754_finite true 10049889 (-23)].
Definition ex_zerocrossover : val := seri [(0); (0); (0); (0); (0); (0); (0); (0); (0); (0); (0); (0); (0); (0); (0); (1); (0); (0); (0); (0); (0); (0); (0); (0); (0); (0); (0); (0); (-1); (0); (0); (0); (0)].
Example conf_zerocrossover : close_to (call (ZeroCrossoverSignal) in_zerocrossover None true) ex_zerocrossover = true.
Proof. vm_compute. reflexivity. Qed.

Definition in_riskratioSheet1 : val := Tup [ser [S754_finite false 13746831 (-18); S754_finite false 13588234 (-18); S754_finite false 13526630 (-18); S754_finite false 13602652 (-18); S754_finite false 13657702 (-18); S754_finite false 13597409 (-18); S754_finite false 13497795 (-18); S754_finite false 13379830 (-18); S754_finite false 12860785 (-18); S754_finite false 12994478 (-18); S754_finite false 13025935 (-18); S754_finite false 12977911 (-18); S754_finite false 13060014 (-18); S754_finite false 13115064 (-18); S754_finite false 13149143 (-18); S754_finite false 13356892 (-18); S754_finite false 13408666 (-18); S754_finite false 12981371 (-18); S754_finite false 12592087 (-18); S754_finite false 12758548 (-18); S754_finite false 13054771 (-18); S754_finite false 13238272 (-18); S754_finite false 13387694 (-18); S754_finite false 13301187 (-18); S754_finite false 13209436 (-18); S754_finite false 13387694 (-18); S754_finite false 11285299 (-18); S754_finite false 13754696 (-18); S754_finite false 13837271 (-18); S754_finite false 13940818 (-18); S754_finite false 14045676 (-18); S754_finite false 13948682 (-18); S754_finite false 14037811 (-18); S754_finite false 13875282 (-18); S754_finite false 14556856 (-18); S754_finite false 14617149 (-18); S754_finite false 14622392 (-18); S754_finite false 14746911 (-18); S754_finite false 14813757 (-18); S754_finite false 14708900 (-18); S754_finite false 14606664 (-18); S754_finite false 14693171 (-18)]; ser [S754_finite false 13880525 (-18); S754_finite false 13825475 (-18); S754_finite false 13741588 (-18); S754_finite false 13723238 (-18); S754_finite false 13822853 (-18); S754_finite false 13746831 (-18); S754_finite false 13631488 (-18); S754_finite false 13644595 (-18); S754_finite false 13294633 (-18); S754_finite false 13133414 (-18); S754_finite false 13138657 (-18); S754_finite false 13230408 (-18); S754_finite false 13219922 (-18); S754_finite false 13324780 (-18); S754_finite false 13482066 (-18); S754_finite false 13489930 (-18); S754_finite false 8527544 (-17); S754_finite false 13353615 (-18); S754_finite false 12883486 (-18); S754_finite false 12968264 (-18); S754_finite false 13295944 (-18); S754_finite false 13447987 (-18); S754_finite false 13558088 (-18); S754_finite false 13442744 (-18); S754_finite false 13510902 (-18); S754_finite false 13529252 (-18); S754_finite false 13725860 (-18); S754_finite false 13849068 (-18); S754_finite false 13998490 (-18); S754_finite false 14119076 (-18); S754_finite false 14153155 (-18); S754_finite false 14155776 (-18); S754_finite false 14244905 (-18); S754_finite false 14129562 (-18); S754_finite false 8760853 (-17); S754_finite false 14740357 (-18); S754_finite false 14844559 (-18); S754_finite false 14874051 (-18); S754_finite false 15018230 (-18); S754_finite false 14889779 (-18); S754_finite false 14777057 (-18); S754_finite false 14879293 (-18)]; ser [S754_finite false 13854310 (-18); S754_finite false 13757317 (-18); S754_finite false 13576438 (-18); S754_finite false 13665567 (-18); S754_finite false 13657702 (-18); S754_finite false 13641974 (-18); S754_finite false 13531873 (-18); S754_finite false 13495173 (-18); S754_finite false 13143900 (-18); S754_finite false 13062636 (-18); S754_finite false 13025935 (-18); S754_finite false 13209436 (-18); S754_finite false 13141279 (-18); S754_finite false 13125550 (-18); S754_finite false 13419151 (-18); S754_finite false 13366723 (-18); S754_finite false 13607895 (-18); S754_finite false 13062636 (-18); S754_finite false 12695634 (-18); S754_finite false 12960399 (-18); S754_finite false 13248758 (-18); S754_finite false 13413908 (-18); S754_finite false 13411287 (-18); S754_finite false 13413908 (-18); S754_finite false 13468959 (-18); S754_finite false 13468959 (-18); S754_finite false 13710131 (-18); S754_finite false 13786153 (-18); S754_finite false 13948682 (-18); S754_finite false 14027325 (-18); S754_finite false 14087619 (-18); S754_finite false 14077133 (-18); S754_finite false 14145290 (-18); S754_finite false 13917225 (-18); S754_finite false 14656471 (-18); S754_finite false 14627635 (-18); S754_finite false 14829486 (-18); S754_finite false 14871429 (-18); S754_finite false 14879293 (-18); S754_finite false 14729871 (-18); S754_finite false 14735114 (-18); S754_finite false 14858322 (-18)]; ser [S754_zero false; S754_zero false; S754_zero false; S754_zero false; S754_zero false; S754_zero false; S754_zero false; S754_zero false; S754_finite false 8388608 (-23); S754_zero false; S754_zero false; S754_zero false; S754_zero false; S754_zero false; S754_zero false; S754_zero false; S754_zero false; S754_zero false; S754_zero false; S754_zero false; S754_zero false; S754_zero false; S754_zero false; S754_finite false 8388608 (-23); S754_zero false; S754_zero false; S754_zero false; S754_zero false; S754_finite false 8388608 (-23); S754_zero false; S754_zero false; S754_zero false; S754_zero false; S754_zero false; S754_zero false; S754_zero false; S754_zero false; S754_zero false; S754_zero false; S754_zero false; S754_zero false; S754_zero false]].
Definition ex_riskratioSheet1 : val := Tup [seri [(0); (0); (0); (0); (0); (0); (0); (0); (0); (0); (0); (0); (0); (0); (0); (0); (1); (1); (1); (1); (1); (1); (1); (1); (1); (1); (1); (1); (1); (1); (1); (1); (1); (1); (2); (2); (2); (2); (2); (2); (2); (2)]; seri [(0); (0); (0); (0); (0); (0); (0); (0); (0); (0); (0); (0); (0); (0); (0); (0); (1); (1); (1); (1); (1); (1); (1); (1); (1); (1); (2); (2); (2); (2); (2); (2); (2); (2); (3); (3); (3); (3); (3); (3); (3); (3)]; seri [(0); (0); (0); (0); (0); (0); (0); (0); (1); (0); (0); (0); (0); (0); (0); (0); (-1); (0); (0); (0); (0); (0); (0); (1); (0); (0); (-1); (0); (1); (0); (0); (0); (0); (0); (-1); (0); (0); (0); (0); (0); (0); (0)]].
Example conf_riskratioSheet1 : close_to (call (dropout 2 (RiskRatioEvaluator (PyFloat (b64_of_Z 2)) (PyFloat (b64_of_Z 4)) 5 None)) in_riskratioSheet1 None true) ex_riskratioSheet1 = true.
Proof. vm_compute. reflexivity. Qed.

Definition in_riskratioSheet2 : val := Tup [ser [S754_finite false 13746831 (-18); S754_finite false 13588234 (-18); S754_finite false 13526630 (-18); S754_finite false 13602652 (-18); S754_finite false 13657702 (-18); S754_finite false 13597409 (-18); S754_finite false 13579059 (-18); S754_finite false 13597409 (-18); S754_finite false 13618381 (-18); S754_finite false 13631488 (-18); S754_finite false 13657702 (-18); S754_finite false 13723238 (-18); S754_finite false 13736346 (-18); S754_finite false 13115064 (-18); S754_finite false 13149143 (-18); S754_finite false 13356892 (-18); S754_finite false 12939428 (-18); S754_finite false 12643205 (-18); S754_finite false 12592087 (-18); S754_finite false 12758548 (-18); S754_finite false 13054771 (-18); S754_finite false 13238272 (-18); S754_finite false 13387694 (-18); S754_finite false 13301187 (-18); S754_finite false 13209436 (-18); S754_finite false 13387694 (-18); S754_finite false 13133414 (-18); S754_finite false 13754696 (-18); S754_finite false 13837271 (-18); S754_finite false 13940818 (-18); S754_finite false 14045676 (-18); S754_finite false 13948682 (-18); S754_finite false 14037811 (-18); S754_finite false 13875282 (-18); S754_finite false 14556856 (-18); S754_finite false 14617149 (-18); S754_finite false 14622392 (-18); S754_finite false 14746911 (-18); S754_finite false 14813757 (-18); S754_finite false 14708900 (-18); S754_finite false 14606664 (-18); S754_finite false 14693171 (-18)]; ser [S754_finite false 13880525 (-18); S754_finite false 13825475 (-18); S754_finite false 13741588 (-18); S754_finite false 13723238 (-18); S754_finite false 13822853 (-18); S754_finite false 13746831 (-18); S754_finite false 13631488 (-18); S754_finite false 13644595 (-18); S754_finite false 13294633 (-18); S754_finite false 13133414 (-18); S754_finite false 13138657 (-18); S754_finite false 13230408 (-18); S754_finite false 13219922 (-18); S754_finite false 13324780 (-18); S754_finite false 13482066 (-18); S754_finite false 13489930 (-18); S754_finite false 14234419 (-18); S754_finite false 13353615 (-18); S754_finite false 12883486 (-18); S754_finite false 12968264 (-18); S754_finite false 13295944 (-18); S754_finite false 13447987 (-18); S754_finite false 13558088 (-18); S754_finite false 13442744 (-18); S754_finite false 13510902 (-18); S754_finite false 13529252 (-18); S754_finite false 13725860 (-18); S754_finite false 13849068 (-18); S754_finite false 13998490 (-18); S754_finite false 14119076 (-18); S754_finite false 14153155 (-18); S754_finite false 14155776 (-18); S754_finite false 14244905 (-18); S754_finite false 14129562 (-18); S754_finite false 8760853 (-17); S754_finite false 14740357 (-18); S754_finite false 14844559 (-18); S754_finite false 14874051 (-18); S754_finite false 15018230 (-18); S754_finite false 14889779 (-18); S754_finite false 14777057 (-18); S754_finite false 14879293 (-18)]; ser [S754_finite false 13854310 (-18); S754_finite false 13757317 (-18); S754_finite false 13576438 (-18); S754_finite false 13665567 (-18); S754_finite false 13657702 (-18); S754_finite false 13641974 (-18); S754_finite false 13531873 (-18); S754_finite false 13495173 (-18); S754_finite false 13143900 (-18); S754_finite false 13062636 (-18); S754_finite false 13657702 (-18); S754_finite false 14024704 (-18); S754_finite false 13141279 (-18); S754_finite false 13125550 (-18); S754_finite false 13419151 (-18); S754_finite false 13366723 (-18); S754_finite false 13607895 (-18); S754_finite false 13062636 (-18); S754_finite false 12695634 (-18); S754_finite false 12960399 (-18); S754_finite false 13248758 (-18); S754_finite false 13413908 (-18); S754_finite false 13411287 (-18); S754_finite false 13413908 (-18); S754_finite false 13468959 (-18); S754_finite false 13468959 (-18); S754_finite false 13382451 (-18); S754_finite false 13382451 (-18); S754_finite false 13948682 (-18); S754_finite false 14027325 (-18); S754_finite false 14087619 (-18); S754_finite false 14077133 (-18); S754_finite false 14145290 (-18); S754_finite false 13917225 (-18); S754_finite false 14656471 (-18); S754_finite false 14627635 (-18); S754_finite false 14829486 (-18); S754_finite false 14871429 (-18); S754_finite false 14879293 (-18); S754_finite false 14729871 (-18); S754_finite false 14735114 (-18); S754_finite false 14858322 (-18)]; ser [S754_zero false; S754_zero false; S754_zero false; S754_zero false; S754_zero false; S754_zero false; S754_finite false 8388608 (-23); S754_zero false; S754_zero false; S754_zero false; S754_zero false; S754_zero false; S754_zero false; S754_zero false; S754_zero false; S754_finite false 8388608 (-23); S754_zero false; S754_zero false; S754_zero false; S754_zero false; S754_zero false; S754_zero false; S754_finite false 8388608 (-23); S754_zero false; S754_finite false 8388608 (-23); S754_zero false; S754_zero false; S754_zero false; S754_zero false; S754_zero false; S754_zero false; S754_zero false; S754_zero false; S754_zero false; S754_zero false; S754_zero false; S754_zero false; S754_zero false; S754_zero false; S754_zero false; S754_zero false; S754_zero false]].
Definition ex_riskratioSheet2 : val := Tup [seri [(0); (0); (0); (0); (0); (0); (0); (0); (0); (0); (0); (1); (1); (1); (1); (1); (1); (1); (1); (1); (1); (1); (1); (1); (1); (1); (1); (1); (1); (1); (1); (1); (1); (1); (1); (1); (1); (1); (1); (1); (1); (1)]; seri [(0); (0); (0); (0); (0); (0); (0); (0); (0); (0); (0); (1); (1); (1); (1); (1); (1); (2); (2); (2); (2); (2); (2); (2); (2); (2); (2); (3); (3); (3); (3); (3); (3); (3); (3); (3); (3); (3); (3); (3); (3); (3)]; seri [(0); (0); (0); (0); (0); (0); (1); (0); (0); (0); (0); (-1); (0); (0); (0); (1); (0); (-1); (0); (0); (0); (0); (1); (0); (0); (0); (0); (-1); (0); (0); (0); (0); (0); (0); (0); (0); (0); (0); (0); (0); (0); (0)]].
Example conf_riskratioSheet2 : close_to (call (dropout 2 (RiskRatioEvaluator (PyFloat (b64_of_Z 2)) (PyFloat (b64_of_Z 4)) 5 (Some 5))) in_riskratioSheet2 None true) ex_riskratioSheet2 = true.
Proof. vm_compute. reflexivity. Qed.

Definition in_corr5 : val := Tup [ser [S754_nan; S754_finite true 15428711 (-32); S754_finite true 10645480 (-31); S754_finite false 8753330 (-31); S754_finite false 15498303 (-35); S754_finite true 9682072 (-32); S754_finite false 9703948 (-31); S754_finite false 9660295 (-30); S754_finite true 9095450 (-30); S754_finite false 9655952 (-32); S754_finite true 13488009 (-31); S754_finite false 11634223 (-30); S754_finite true 15346020 (-35); S754_finite false 11034880 (-30); S754_finite false 8904316 (-28); S754_finite false 15857916 (-29); S754_finite true 13393869 (-30); S754_finite false 14467258 (-32); S754_finite false 10814018 (-31); S754_finite true 14346446 (-30); S754_finite false 8633557 (-30); S754_finite false 9015465 (-32); S754_finite true 9896238 (-30); S754_finite true 10442309 (-29); S754_finite true 16668696 (-32); S754_finite false 10690936 (-30); S754_finite true 14957827 (-29); S754_finite false 9942054 (-29); S754_finite true 16268816 (-29); S754_finite true 11025028 (-30)]; ser [S754_nan; S754_finite false 8801162 (-29); S754_finite false 8659208 (-28); S754_finite false 12582912 (-28); S754_finite true 12820798 (-32); S754_finite true 12859184 (-30); S754_finite true 11388171 (-28); S754_finite true 9344272 (-28); S754_finite true 10561395 (-30); S754_finite false 9333021 (-27); S754_finite false 11634973 (-29); S754_finite false 9761289 (-29); S754_finite false 12782641 (-31); S754_finite false 12707004 (-31); S754_finite false 15790321 (-28); S754_finite true 11184811 (-28); S754_finite true 12449181 (-29); S754_finite true 11151621 (-29); S754_finite true 14641934 (-29); S754_finite true 13379960 (-29); S754_finite true 13721940 (-32); S754_finite true 13765921 (-32); S754_finite true 10357638 (-29); S754_finite true 10561395 (-30); S754_finite true 12444028 (-29); S754_finite false 14559211 (-29); S754_finite false 15946661 (-28); S754_finite false 10034970 (-30); S754_finite false 9942054 (-29); S754_finite false 13015052 (-30)]].
Definition ex_corr5 : val := ser [S754_zero false; S754_zero false; S754_zero false; S754_zero false; S754_zero false; S754_finite false 9532253 (-25); S754_finite true 16506484 (-26); S754_finite true 16148827 (-26); S754_finite true 12137381 (-24); S754_finite true 11783999 (-26); S754_finite true 9980250 (-25); S754_finite true 10596842 (-27); S754_finite false 12652709 (-25); S754_finite true 11209686 (-26); S754_finite false 13040301 (-24); S754_finite false 12416078 (-27); S754_finite false 11305502 (-25); S754_finite false 14387728 (-25); S754_finite false 15770286 (-25); S754_finite true 14095137 (-24); S754_finite false 8644912 (-24); S754_finite false 14942797 (-25); S754_finite false 8715332 (-24); S754_finite false 10861067 (-24); S754_finite false 14133185 (-25); S754_finite false 11424572 (-24); S754_finite true 9448161 (-25); S754_finite true 8605224 (-25); S754_finite true 13705752 (-25); S754_finite true 16750897 (-25)].
Example conf_corr5 : close_to (call (Correlation 5) in_corr5 None true) ex_corr5 = true.
Proof. vm_compute. reflexivity. Qed.

Definition in_crosscorr : val := Tup [ser [S754_zero false; S754_finite true 15428711 (-32); S754_finite true 10645480 (-31); S754_finite false 8753330 (-31); S754_finite false 15498303 (-35); S754_finite true 9682072 (-32); S754_finite false 9703948 (-31); S754_finite false 9660295 (-30); S754_finite true 9095450 (-30); S754_finite false 9655952 (-32); S754_finite true 13488009 (-31); S754_finite false 11634223 (-30); S754_finite true 15346020 (-35); S754_finite false 11034880 (-30); S754_finite false 8904316 (-28); S754_finite false 15857916 (-29); S754_finite true 13393869 (-30); S754_finite false 14467258 (-32); S754_finite false 10814018 (-31); S754_finite true 14346446 (-30); S754_finite false 8633557 (-30); S754_finite false 9015465 (-32); S754_finite true 9896238 (-30); S754_finite true 10442309 (-29); S754_finite true 16668696 (-32); S754_finite false 10690936 (-30); S754_finite true 14957827 (-29); S754_finite false 9942054 (-29); S754_finite true 16268816 (-29); S754_finite true 11025028 (-30)]; ser [S754_nan; S754_finite false 8801162 (-29); S754_finite false 8659208 (-28); S754_finite false 12582912 (-28); S754_finite true 12820798 (-32); S754_finite true 12859184 (-30); S754_finite true 11388171 (-28); S754_finite true 9344272 (-28); S754_finite true 10561395 (-30); S754_finite false 9333021 (-27); S754_finite false 11634973 (-29); S754_finite false 9761289 (-29); S754_finite false 12782641 (-31); S754_finite false 12707004 (-31); S754_finite false 15790321 (-28); S754_finite true 11184811 (-28); S754_finite true 12449181 (-29); S754_finite true 11151621 (-29); S754_finite true 14641934 (-29); S754_finite true 13379960 (-29); S754_finite true 13721940 (-32); S754_finite true 13765921 (-32); S754_finite true 10357638 (-29); S754_finite true 10561395 (-30); S754_finite true 12444028 (-29); S754_finite false 14559211 (-29); S754_finite false 15946661 (-28); S754_finite false 10034970 (-30); S754_finite false 9942054 (-29); S754_finite false 13015052 (-30)]].
Definition ex_crosscorr : val := ser [S754_zero false; S754_zero false; S754_zero false; S754_zero false; S754_zero false; S754_zero false; S754_zero false; S754_finite true 16118056 (-24); S754_finite false 9410901 (-26); S754_finite false 14273062 (-27); S754_finite false 16061691 (-25); S754_finite false 11164135 (-24); S754_finite false 13045729 (-24); S754_finite false 10294662 (-24); S754_finite false 13927553 (-27); S754_finite true 16165876 (-25); S754_finite true 15019184 (-24); S754_finite true 11354039 (-25); S754_finite true 15755819 (-26); S754_finite true 12021533 (-26); S754_finite true 10673548 (-24); S754_finite true 13216587 (-25); S754_finite true 10696157 (-24); S754_finite true 12888981 (-24); S754_finite true 15442848 (-24); S754_finite true 8926826 (-24); S754_finite false 15353569 (-26); S754_finite false 11461825 (-24); S754_finite true 9599007 (-26); S754_finite true 16246004 (-27)].
Example conf_crosscorr : close_to (call (CrossCorrelation 5 2) in_crosscorr None true) ex_crosscorr = true.
Proof. vm_compute. reflexivity. Qed.

Definition in_autocorr : val := ser [S754_zero false; S754_finite true 15428711 (-32); S754_finite true 10645480 (-31); S754_finite false 8753330 (-31); S754_finite false 15498303 (-35); S754_finite true 9682072 (-32); S754_finite false 9703948 (-31); S754_finite false 9660295 (-30); S754_finite true 9095450 (-30); S754_finite false 9655952 (-32); S754_finite true 13488009 (-31); S754_finite false 11634223 (-30); S754_finite true 15346020 (-35); S754_finite false 11034880 (-30); S754_finite false 8904316 (-28); S754_finite false 15857916 (-29); S754_finite true 13393869 (-30); S754_finite false 14467258 (-32); S754_finite false 10814018 (-31); S754_finite true 14346446 (-30); S754_finite false 8633557 (-30); S754_finite false 9015465 (-32); S754_finite true 9896238 (-30); S754_finite true 10442309 (-29); S754_finite true 16668696 (-32); S754_finite false 10690936 (-30); S754_finite true 14957827 (-29); S754_finite false 9942054 (-29); S754_finite true 16268816 (-29); S754_finite true 11025028 (-30)].
Definition ex_autocorr : val := ser [S754_zero false; S754_zero false; S754_zero false; S754_zero false; S754_zero false; S754_zero false; S754_zero false; S754_finite true 13365466 (-25); S754_finite true 10734836 (-24); S754_finite true 9006342 (-24); S754_finite false 11142640 (-27); S754_finite false 9184864 (-26); S754_finite false 9355059 (-25); S754_finite false 12387321 (-24); S754_finite false 14352811 (-25); S754_finite false 12159351 (-25); S754_finite true 16643476 (-25); S754_finite true 15311517 (-24); S754_finite true 8897264 (-24); S754_finite true 13919757 (-26); S754_finite true 11594155 (-25); S754_finite true 15556894 (-30); S754_finite true 16162013 (-25); S754_finite true 10207207 (-25); S754_finite true 8512388 (-25); S754_finite true 14404579 (-24); S754_finite true 10671399 (-24); S754_finite false 13638962 (-34); S754_finite false 8420199 (-24); S754_finite false 11258879 (-25)].
Example conf_autocorr : close_to (call (AutoCorrelation 5 2) in_autocorr None true) ex_autocorr = true.
Proof. vm_compute. reflexivity. Qed.

Definition in_gmin : val := ser [S754_finite false 10695475 (-21); S754_finite false 9479127 (-21); S754_finite false 14176748 (-22); S754_finite false 10863247 (-22); S754_finite false 9437184 (-22); S754_finite false 10695475 (-22); S754_finite false 9185526 (-22); S754_finite false 13967032 (-22); S754_finite false 9521070 (-21); S754_finite false 10737418 (-21); S754_finite false 9772728 (-21); S754_finite true 15099494 (-22); S754_finite true 11408507 (-22); S754_finite true 14931722 (-23); S754_finite true 15435039 (-25); S754_finite false 10737418 (-23); S754_finite false 13337887 (-22); S754_finite false 8493466 (-21); S754_finite false 10129244 (-21); S754_finite true 11303649 (-21); S754_finite false 12939428 (-21); S754_finite false 13065257 (-21); S754_finite false 13128172 (-21); S754_finite false 11513364 (-21); S754_finite false 9332326 (-21); S754_finite false 15309210 (-22); S754_finite false 9269412 (-22); S754_finite false 12750684 (-26); S754_finite true 12918456 (-24); S754_finite true 12247368 (-23); S754_finite true 10485760 (-23); S754_finite true 10905190 (-23); S754_finite true 9982444 (-23)].
Definition ex_gmin : val := ser [S754_finite false 10695475 (-21); S754_finite false 9479127 (-21); S754_finite false 14176748 (-22); S754_finite false 10863247 (-22); S754_finite false 9437184 (-22); S754_finite false 9437184 (-22); S754_finite false 9185526 (-22); S754_finite false 9185526 (-22); S754_finite false 9185526 (-22); S754_finite false 9185526 (-22); S754_finite false 9185526 (-22); S754_finite true 15099494 (-22); S754_finite true 15099494 (-22); S754_finite true 15099494 (-22); S754_finite true 15099494 (-22); S754_finite true 15099494 (-22); S754_finite true 15099494 (-22); S754_finite true 15099494 (-22); S754_finite true 15099494 (-22); S754_finite true 11303649 (-21); S754_finite true 11303649 (-21); S754_finite true 11303649 (-21); S754_finite true 11303649 (-21); S754_finite true 11303649 (-21); S754_finite true 11303649 (-21); S754_finite true 11303649 (-21); S754_finite true 11303649 (-21); S754_finite true 11303649 (-21); S754_finite true 11303649 (-21); S754_finite true 11303649 (-21); S754_finite true 11303649 (-21); S754_finite true 11303649 (-21); S754_finite true 11303649 (-21)].
Example conf_gmin : close_to (call (GlobalMinimum) in_gmin None true) ex_gmin = true.
Proof. vm_compute. reflexivity. Qed.

Definition in_gmax : val := ser [S754_finite false 10695475 (-21); S754_finite false 9479127 (-21); S754_finite false 14176748 (-22); S754_finite false 10863247 (-22); S754_finite false 9437184 (-22); S754_finite false 10695475 (-22); S754_finite false 9185526 (-22); S754_finite false 13967032 (-22); S754_finite false 9521070 (-21); S754_finite false 10737418 (-21); S754_finite false 9772728 (-21); S754_finite true 15099494 (-22); S754_finite true 11408507 (-22); S754_finite true 14931722 (-23); S754_finite true 15435039 (-25); S754_finite false 10737418 (-23); S754_finite false 13337887 (-22); S754_finite false 8493466 (-21); S754_finite false 10129244 (-21); S754_finite true 11303649 (-21); S754_finite false 12939428 (-21); S754_finite false 13065257 (-21); S754_finite false 13128172 (-21); S754_finite false 11513364 (-21); S754_finite false 9332326 (-21); S754_finite false 15309210 (-22); S754_finite false 9269412 (-22); S754_finite false 12750684 (-26); S754_finite true 12918456 (-24); S754_finite true 12247368 (-23); S754_finite true 10485760 (-23); S754_finite true 10905190 (-23); S754_finite true 9982444 (-23)].
Definition ex_gmax : val := ser [S754_finite false 10695475 (-21); S754_finite false 10695475 (-21); S754_finite false 10695475 (-21); S754_finite false 10695475 (-21); S754_finite false 10695475 (-21); S754_finite false 10695475 (-21); S754_finite false 10695475 (-21); S754_finite false 10695475 (-21); S754_finite false 10695475 (-21); S754_finite false 10737418 (-21); S754_finite false 10737418 (-21); S754_finite false 10737418 (-21); S754_finite false 10737418 (-21); S754_finite false 10737418 (-21); S754_finite false 10737418 (-21); S754_finite false 10737418 (-21); S754_finite false 10737418 (-21); S754_finite false 10737418 (-21); S754_finite false 10737418 (-21); S754_finite false 10737418 (-21); S754_finite false 12939428 (-21); S754_finite false 13065257 (-21); S754_finite false 13128172 (-21); S754_finite false 13128172 (-21); S754_finite false 13128172 (-21); S754_finite false 13128172 (-21); S754_finite false 13128172 (-21); S754_finite false 13128172 (-21); S754_finite false 13128172 (-21); S754_finite false 13128172 (-21); S754_finite false 13128172 (-21); S754_finite false 13128172 (-21); S754_finite false 13128172 (-21)].
Example conf_gmax : close_to (call (GlobalMaximum) in_gmax None true) ex_gmax = true.
Proof. vm_compute. reflexivity. Qed.

Definition in_lmin : val := ser [S754_finite false 10695475 (-21); S754_finite false 9479127 (-21); S754_finite false 14176748 (-22); S754_finite false 10863247 (-22); S754_finite false 9437184 (-22); S754_finite false 10695475 (-22); S754_finite false 9185526 (-22); S754_finite false 13967032 (-22); S754_finite false 9521070 (-21); S754_finite false 10737418 (-21); S754_finite false 9772728 (-21); S754_finite true 15099494 (-22); S754_finite true 11408507 (-22); S754_finite true 14931722 (-23); S754_finite true 15435039 (-25); S754_finite false 10737418 (-23); S754_finite false 13337887 (-22); S754_finite false 8493466 (-21); S754_finite false 10129244 (-21); S754_finite true 11303649 (-21); S754_finite false 12939428 (-21); S754_finite false 13065257 (-21); S754_finite false 13128172 (-21); S754_finite false 11513364 (-21); S754_finite false 9332326 (-21); S754_finite false 15309210 (-22); S754_finite false 9269412 (-22); S754_finite false 12750684 (-26); S754_finite true 12918456 (-24); S754_finite true 12247368 (-23); S754_finite true 10485760 (-23); S754_finite true 10905190 (-23); S754_finite true 9982444 (-23)].
Definition ex_lmin : val := ser [S754_finite false 10695475 (-21); S754_finite false 9479127 (-21); S754_finite false 14176748 (-22); S754_finite false 10863247 (-22); S754_finite false 9437184 (-22); S754_finite false 9437184 (-22); S754_finite false 9185526 (-22); S754_finite false 9185526 (-22); S754_finite false 9185526 (-22); S754_finite false 9185526 (-22); S754_finite false 9185526 (-22); S754_finite true 15099494 (-22); S754_finite true 15099494 (-22); S754_finite true 15099494 (-22); S754_finite true 15099494 (-22); S754_finite true 15099494 (-22); S754_finite true 11408507 (-22); S754_finite true 14931722 (-23); S754_finite true 15435039 (-25); S754_finite true 11303649 (-21); S754_finite true 11303649 (-21); S754_finite true 11303649 (-21); S754_finite true 11303649 (-21); S754_finite true 11303649 (-21); S754_finite false 9332326 (-21); S754_finite false 15309210 (-22); S754_finite false 9269412 (-22); S754_finite false 12750684 (-26); S754_finite true 12918456 (-24); S754_finite true 12247368 (-23); S754_finite true 12247368 (-23); S754_finite true 12247368 (-23); S754_finite true 12247368 (-23)].
Example conf_lmin : close_to (call (LocalMinimum 5) in_lmin None true) ex_lmin = true.
Proof. vm_compute. reflexivity. Qed.

Definition in_lmax : val := ser [S754_finite false 10695475 (-21); S754_finite false 9479127 (-21); S754_finite false 14176748 (-22); S754_finite false 10863247 (-22); S754_finite false 9437184 (-22); S754_finite false 10695475 (-22); S754_finite false 9185526 (-22); S754_finite false 13967032 (-22); S754_finite false 9521070 (-21); S754_finite false 10737418 (-21); S754_finite false 9772728 (-21); S754_finite true 15099494 (-22); S754_finite true 11408507 (-22); S754_finite true 14931722 (-23); S754_finite true 15435039 (-25); S754_finite false 10737418 (-23); S754_finite false 13337887 (-22); S754_finite false 8493466 (-21); S754_finite false 10129244 (-21); S754_finite true 11303649 (-21); S754_finite false 12939428 (-21); S754_finite false 13065257 (-21); S754_finite false 13128172 (-21); S754_finite false 11513364 (-21); S754_finite false 9332326 (-21); S754_finite false 15309210 (-22); S754_finite false 9269412 (-22); S754_finite false 12750684 (-26); S754_finite true 12918456 (-24); S754_finite true 12247368 (-23); S754_finite true 10485760 (-23); S754_finite true 10905190 (-23); S754_finite true 9982444 (-23)].
Definition ex_lmax : val := ser [S754_finite false 10695475 (-21); S754_finite false 10695475 (-21); S754_finite false 10695475 (-21); S754_finite false 10695475 (-21); S754_finite false 10695475 (-21); S754_finite false 9479127 (-21); S754_finite false 14176748 (-22); S754_finite false 13967032 (-22); S754_finite false 9521070 (-21); S754_finite false 10737418 (-21); S754_finite false 10737418 (-21); S754_finite false 10737418 (-21); S754_finite false 10737418 (-21); S754_finite false 10737418 (-21); S754_finite false 9772728 (-21); S754_finite false 10737418 (-23); S754_finite false 13337887 (-22); S754_finite false 8493466 (-21); S754_finite false 10129244 (-21); S754_finite false 10129244 (-21); S754_finite false 12939428 (-21); S754_finite false 13065257 (-21); S754_finite false 13128172 (-21); S754_finite false 13128172 (-21); S754_finite false 13128172 (-21); S754_finite false 13128172 (-21); S754_finite false 13128172 (-21); S754_finite false 11513364 (-21); S754_finite false 9332326 (-21); S754_finite false 15309210 (-22); S754_finite false 9269412 (-22); S754_finite false 12750684 (-26); S754_finite true 12918456 (-24)].
Example conf_lmax : close_to (call (LocalMaximum 5) in_lmax None true) ex_lmax = true.
Proof. vm_compute. reflexivity. Qed.

Definition in_lag3 : val := ser [S754_finite false 14365491 (-22); S754_finite false 14931722 (-22); S754_finite false 16672358 (-22); S754_finite false 8965325 (-21); S754_finite false 8912896 (-21); S754_finite false 16567501 (-22); S754_finite false 15414067 (-22); S754_finite false 8388608 (-21); S754_finite false 8650752 (-21); S754_finite false 9961472 (-21); S754_finite false 10380902 (-21); S754_finite false 9227469 (-21)].
Definition ex_lag3 : val := ser [S754_zero false; S754_zero false; S754_zero false; S754_finite false 14365491 (-22); S754_finite false 14931722 (-22); S754_finite false 16672358 (-22); S754_finite false 8965325 (-21); S754_finite false 8912896 (-21); S754_finite false 16567501 (-22); S754_finite false 15414067 (-22); S754_finite false 8388608 (-21); S754_finite false 8650752 (-21)].
Example conf_lag3 : close_to (call (Lag 3) in_lag3 None true) ex_lag3 = true.
Proof. vm_compute. reflexivity. Qed.

Definition in_setduring : val := seri [1;2;3;4;5;6;7;8;9].
Definition ex_setduring : val := seri [0;0;0;0;5;6;7;8;9].
Example conf_setduring : close_to (call (SetDuring (isc 0) 4) in_setduring None true) ex_setduring = true.
Proof. vm_compute. reflexivity. Qed.

Definition in_ffill : val := ser [S754_finite false 16357786 (-22); S754_finite false 10066330 (-21); S754_finite false 9437184 (-21); S754_zero false; S754_finite false 15938355 (-22); S754_finite false 9437184 (-20); S754_finite false 14260634 (-22); S754_finite false 10905190 (-21); S754_finite false 9017754 (-21); S754_finite false 12792627 (-21); S754_zero false; S754_finite false 12582912 (-22)].
Definition ex_ffill : val := ser [S754_finite false 16357786 (-22); S754_finite false 10066330 (-21); S754_finite false 9437184 (-21); S754_finite false 9437184 (-21); S754_finite false 15938355 (-22); S754_finite false 9437184 (-20); S754_finite false 14260634 (-22); S754_finite false 10905190 (-21); S754_finite false 9017754 (-21); S754_finite false 12792627 (-21); S754_finite false 12792627 (-21); S754_finite false 12582912 (-22)].
Example conf_ffill : close_to (call (FFill Identity) in_ffill None true) ex_ffill = true.
Proof. vm_compute. reflexivity. Qed.

Definition in_ffilllag : val := ser [S754_finite false 16357786 (-22); S754_finite false 10066330 (-21); S754_finite false 9437184 (-21); S754_zero false; S754_finite false 15938355 (-22); S754_zero false; S754_finite false 14260634 (-22); S754_finite false 10905190 (-21); S754_finite false 9017754 (-21); S754_finite false 12792627 (-21); S754_zero false; S754_finite false 12582912 (-22)].
Definition ex_ffilllag : val := ser [S754_zero false; S754_finite false 16357786 (-22); S754_finite false 10066330 (-21); S754_finite false 10066330 (-21); S754_finite false 9437184 (-21); S754_finite false 9437184 (-21); S754_finite false 15938355 (-22); S754_finite false 14260634 (-22); S754_finite false 10905190 (-21); S754_finite false 9017754 (-21); S754_finite false 9017754 (-21); S754_finite false 12792627 (-21)].
Example conf_ffilllag : close_to (call (FFill (Lag 1)) in_ffilllag None true) ex_ffilllag = true.
Proof. vm_compute. reflexivity. Qed.

Definition in_map : val := mat 12 3 [S754_finite false 16357786 (-22); S754_finite false 13631488 (-20); S754_finite false 9332326 (-18); S754_finite false 10066330 (-21); S754_finite false 14260634 (-20); S754_finite false 9804186 (-18); S754_finite false 9437184 (-21); S754_finite false 14470349 (-20); S754_finite false 10197402 (-18); S754_finite false 16357786 (-22); S754_finite false 14994637 (-20); S754_finite false 10302259 (-18); S754_finite false 15938355 (-22); S754_finite false 16043213 (-20); S754_finite false 10433331 (-18); S754_finite false 15099494 (-22); S754_finite false 14889779 (-20); S754_finite false 10538189 (-18); S754_finite false 14260634 (-22); S754_finite false 14575206 (-20); S754_finite false 10040115 (-18); S754_finite false 10905190 (-21); S754_finite false 15204352 (-20); S754_finite false 9725542 (-18); S754_finite false 9017754 (-21); S754_finite false 15518925 (-20); S754_finite false 9620685 (-18); S754_finite false 12792627 (-21); S754_finite false 14575206 (-20); S754_finite false 9332326 (-18); S754_finite false 8808038 (-21); S754_finite false 14260634 (-20); S754_finite false 9410970 (-18); S754_finite false 12582912 (-22); S754_finite false 14994637 (-20); S754_finite false 9332326 (-18)].
Definition ex_map : val := mat 12 3 [S754_zero false; S754_zero false; S754_zero false; S754_finite false 15948841 (-20); S754_finite false 11075584 (-16); S754_finite false 10382213 (-13); S754_finite false 12079596 (-19); S754_finite false 12121539 (-16); S754_finite false 11458642 (-13); S754_finite false 10616832 (-19); S754_finite false 12480676 (-16); S754_finite false 12396216 (-13); S754_finite false 15948841 (-20); S754_finite false 13401457 (-16); S754_finite false 12652462 (-13); S754_finite false 15141437 (-20); S754_finite false 15341322 (-16); S754_finite false 12976456 (-13); S754_finite false 13589545 (-20); S754_finite false 13214679 (-16); S754_finite false 13238600 (-13); S754_finite false 12121539 (-20); S754_finite false 12662211 (-16); S754_finite false 12016763 (-13); S754_finite false 14176748 (-19); S754_finite false 13778944 (-16); S754_finite false 11275551 (-13); S754_finite false 9694085 (-19); S754_finite false 14355005 (-16); S754_finite false 11033723 (-13); S754_finite false 9754378 (-18); S754_finite false 12662211 (-16); S754_finite false 10382213 (-13); S754_finite false 9248440 (-19); S754_finite false 12121539 (-16); S754_finite false 10557932 (-13)].
Example conf_map : close_to (call (Map Square 3) in_map None true) ex_map = true.
Proof. vm_compute. reflexivity. Qed.

Definition in_mapfork : val := mat 12 3 [S754_finite false 16357786 (-22); S754_finite false 13631488 (-20); S754_finite false 9332326 (-18); S754_finite false 10066330 (-21); S754_finite false 14260634 (-20); S754_finite false 9804186 (-18); S754_finite false 9437184 (-21); S754_finite false 14470349 (-20); S754_finite false 10197402 (-18); S754_finite false 16357786 (-22); S754_finite false 14994637 (-20); S754_finite false 10302259 (-18); S754_finite false 15938355 (-22); S754_finite false 16043213 (-20); S754_finite false 10433331 (-18); S754_finite false 15099494 (-22); S754_finite false 14889779 (-20); S754_finite false 10538189 (-18); S754_finite false 14260634 (-22); S754_finite false 14575206 (-20); S754_finite false 10040115 (-18); S754_finite false 10905190 (-21); S754_finite false 15204352 (-20); S754_finite false 9725542 (-18); S754_finite false 9017754 (-21); S754_finite false 15518925 (-20); S754_finite false 9620685 (-18); S754_finite false 12792627 (-21); S754_finite false 14575206 (-20); S754_finite false 9332326 (-18); S754_finite false 8808038 (-21); S754_finite false 14260634 (-20); S754_finite false 9410970 (-18); S754_finite false 12582912 (-22); S754_finite false 14994637 (-20); S754_finite false 9332326 (-18)].
Definition ex_mapfork : val := Tup [mat 12 3 [S754_zero false; S754_zero false; S754_zero false; S754_finite false 16357786 (-22); S754_finite false 13631488 (-20); S754_finite false 9332326 (-18); S754_finite false 10066330 (-21); S754_finite false 14260634 (-20); S754_finite false 9804186 (-18); S754_finite false 9437184 (-21); S754_finite false 14470349 (-20); S754_finite false 10197402 (-18); S754_finite false 16357786 (-22); S754_finite false 14994637 (-20); S754_finite false 10302259 (-18); S754_finite false 15938355 (-22); S754_finite false 16043213 (-20); S754_finite false 10433331 (-18); S754_finite false 15099494 (-22); S754_finite false 14889779 (-20); S754_finite false 10538189 (-18); S754_finite false 14260634 (-22); S754_finite false 14575206 (-20); S754_finite false 10040115 (-18); S754_finite false 10905190 (-21); S754_finite false 15204352 (-20); S754_finite false 9725542 (-18); S754_finite false 9017754 (-21); S754_finite false 15518925 (-20); S754_finite false 9620685 (-18); S754_finite false 12792627 (-21); S754_finite false 14575206 (-20); S754_finite false 9332326 (-18); S754_finite false 8808038 (-21); S754_finite false 14260634 (-20); S754_finite false 9410970 (-18)]; mat 12 3 [S754_zero false; S754_zero false; S754_zero false; S754_finite false 16357786 (-22); S754_finite false 13631488 (-20); S754_finite false 9332326 (-18); S754_finite false 10066330 (-21); S754_finite false 14260634 (-20); S754_finite false 9804186 (-18); S754_finite false 9437184 (-21); S754_finite false 14470349 (-20); S754_finite false 10197402 (-18); S754_finite false 16357786 (-22); S754_finite false 14994637 (-20); S754_finite false 10302259 (-18); S754_finite false 15938355 (-22); S754_finite false 16043213 (-20); S754_finite false 10433331 (-18); S754_finite false 15099494 (-22); S754_finite false 14889779 (-20); S754_finite false 10538189 (-18); S754_finite false 14260634 (-22); S754_finite false 14575206 (-20); S754_finite false 10040115 (-18); S754_finite false 10905190 (-21); S754_finite false 15204352 (-20); S754_finite false 9725542 (-18); S754_finite false 9017754 (-21); S754_finite false 15518925 (-20); S754_finite false 9620685 (-18); S754_finite false 12792627 (-21); S754_finite false 14575206 (-20); S754_finite false 9332326 (-18); S754_finite false 8808038 (-21); S754_finite false 14260634 (-20); S754_finite false 9410970 (-18)]].
Example conf_mapfork : close_to (call (Map (Compose [Fork 2; Lag 1]) 3) in_mapfork None true) ex_mapfork = true.
Proof. vm_compute. reflexivity. Qed.

Definition in_mapadd : val := Tup [mat 12 3 [S754_finite false 16357786 (-22); S754_finite false 13631488 (-20); S754_finite false 9332326 (-18); S754_finite false 10066330 (-21); S754_finite false 14260634 (-20); S754_finite false 9804186 (-18); S754_finite false 9437184 (-21); S754_finite false 14470349 (-20); S754_finite false 10197402 (-18); S754_finite false 16357786 (-22); S754_finite false 14994637 (-20); S754_finite false 10302259 (-18); S754_finite false 15938355 (-22); S754_finite false 16043213 (-20); S754_finite false 10433331 (-18); S754_finite false 15099494 (-22); S754_finite false 14889779 (-20); S754_finite false 10538189 (-18); S754_finite false 14260634 (-22); S754_finite false 14575206 (-20); S754_finite false 10040115 (-18); S754_finite false 10905190 (-21); S754_finite false 15204352 (-20); S754_finite false 9725542 (-18); S754_finite false 9017754 (-21); S754_finite false 15518925 (-20); S754_finite false 9620685 (-18); S754_finite false 12792627 (-21); S754_finite false 14575206 (-20); S754_finite false 9332326 (-18); S754_finite false 8808038 (-21); S754_finite false 14260634 (-20); S754_finite false 9410970 (-18); S754_finite false 12582912 (-22); S754_finite false 14994637 (-20); S754_finite false 9332326 (-18)]; mat 12 3 [S754_zero false; S754_zero false; S754_zero false; S754_finite false 16357786 (-22); S754_finite false 16357786 (-22); S754_finite false 13631488 (-20); S754_finite false 10066330 (-21); S754_finite false 10066330 (-21); S754_finite false 14260634 (-20); S754_finite false 9437184 (-21); S754_finite false 9437184 (-21); S754_finite false 14470349 (-20); S754_finite false 16357786 (-22); S754_finite false 16357786 (-22); S754_finite false 14994637 (-20); S754_finite false 15938355 (-22); S754_finite false 15938355 (-22); S754_finite false 16043213 (-20); S754_finite false 15099494 (-22); S754_finite false 15099494 (-22); S754_finite false 14889779 (-20); S754_finite false 14260634 (-22); S754_finite false 14260634 (-22); S754_finite false 14575206 (-20); S754_finite false 10905190 (-21); S754_finite false 10905190 (-21); S754_finite false 15204352 (-20); S754_finite false 9017754 (-21); S754_finite false 9017754 (-21); S754_finite false 15518925 (-20); S754_finite false 12792627 (-21); S754_finite false 12792627 (-21); S754_finite false 14575206 (-20); S754_finite false 8808038 (-21); S754_finite false 8808038 (-21); S754_finite false 14260634 (-20)]].
Definition ex_mapadd : val := mat 12 3 [S754_finite false 16357786 (-22); S754_finite false 13631488 (-20); S754_finite false 9332326 (-18); S754_finite false 9122611 (-20); S754_finite false 9175040 (-19); S754_finite false 13212058 (-18); S754_finite false 9751757 (-20); S754_finite false 9751757 (-19); S754_finite false 13762560 (-18); S754_finite false 8808038 (-20); S754_finite false 9856614 (-19); S754_finite false 13919846 (-18); S754_finite false 16148070 (-21); S754_finite false 10066330 (-19); S754_finite false 14181990 (-18); S754_finite false 15518925 (-21); S754_finite false 9437184 (-19); S754_finite false 14548992 (-18); S754_finite false 14680064 (-21); S754_finite false 9175040 (-19); S754_finite false 13762560 (-18); S754_finite false 9017754 (-20); S754_finite false 9384755 (-19); S754_finite false 13369344 (-18); S754_finite false 9961472 (-20); S754_finite false 10485760 (-19); S754_finite false 13421773 (-18); S754_finite false 10905190 (-20); S754_finite false 9542042 (-19); S754_finite false 13212058 (-18); S754_finite false 10800333 (-20); S754_finite false 10328474 (-19); S754_finite false 13054771 (-18); S754_finite false 15099494 (-21); S754_finite false 9699328 (-19); S754_finite false 12897485 (-18)].
Example conf_mapadd : close_to (call (Map Add 3) in_mapadd None true) ex_mapadd = true.
Proof. vm_compute. reflexivity. Qed.

Definition in_mapffill : val := mat 12 3 [S754_finite false 16357786 (-22); S754_finite false 13631488 (-20); S754_finite false 9332326 (-18); S754_finite false 10066330 (-21); S754_finite false 14260634 (-20); S754_finite false 9804186 (-18); S754_zero false; S754_finite false 14470349 (-20); S754_zero false; S754_finite false 16357786 (-22); S754_finite false 14994637 (-20); S754_finite false 10302259 (-18); S754_finite false 15938355 (-22); S754_zero false; S754_finite false 10433331 (-18); S754_finite false 15099494 (-22); S754_finite false 14889779 (-20); S754_finite false 10538189 (-18); S754_finite false 14260634 (-22); S754_finite false 14575206 (-20); S754_finite false 10040115 (-18); S754_zero false; S754_finite false 15204352 (-20); S754_finite false 9725542 (-18); S754_finite false 9017754 (-21); S754_finite false 15518925 (-20); S754_zero false; S754_finite false 12792627 (-21); S754_finite false 14575206 (-20); S754_finite false 9332326 (-18); S754_finite false 8808038 (-21); S754_zero false; S754_finite false 9410970 (-18); S754_finite false 12582912 (-22); S754_finite false 14994637 (-20); S754_finite false 9332326 (-18)].
Definition ex_mapffill : val := mat 12 3 [S754_zero false; S754_zero false; S754_zero false; S754_finite false 15948841 (-20); S754_finite false 11075584 (-16); S754_finite false 10382213 (-13); S754_finite false 15948841 (-20); S754_finite false 12121539 (-16); S754_finite false 10382213 (-13); S754_finite false 12079596 (-19); S754_finite false 12480676 (-16); S754_finite false 11458642 (-13); S754_finite false 15948841 (-20); S754_finite false 12480676 (-16); S754_finite false 12652462 (-13); S754_finite false 15141437 (-20); S754_finite false 13401457 (-16); S754_finite false 12976456 (-13); S754_finite false 13589545 (-20); S754_finite false 13214679 (-16); S754_finite false 13238600 (-13); S754_finite false 13589545 (-20); S754_finite false 12662211 (-16); S754_finite false 12016763 (-13); S754_finite false 12121539 (-20); S754_finite false 13778944 (-16); S754_finite false 12016763 (-13); S754_finite false 9694085 (-19); S754_finite false 14355005 (-16); S754_finite false 11275551 (-13); S754_finite false 9754378 (-18); S754_finite false 14355005 (-16); S754_finite false 10382213 (-13); S754_finite false 9248440 (-19); S754_finite false 12662211 (-16); S754_finite false 10557932 (-13)].
Example conf_mapffill : close_to (call (Map (FFill Square) 3) in_mapffill None true) ex_mapffill = true.
Proof. vm_compute. reflexivity. Qed.

Definition in_compose : val := Tup [ser [S754_finite false 16357786 (-22); S754_finite false 10066330 (-21); S754_finite false 9437184 (-21); S754_finite false 16357786 (-22); S754_finite false 15938355 (-22); S754_finite false 15099494 (-22); S754_finite false 14260634 (-22); S754_finite false 10905190 (-21); S754_finite false 9017754 (-21); S754_finite false 12792627 (-21); S754_finite false 8808038 (-21); S754_finite false 12582912 (-22)]; ser [S754_finite false 9437184 (-21); S754_finite false 13212058 (-21); S754_finite false 13421773 (-22); S754_finite false 13631488 (-21); S754_finite false 14260634 (-22); S754_finite false 8808038 (-20); S754_finite false 13002342 (-22); S754_finite false 11744051 (-21); S754_finite false 15309210 (-21); S754_finite false 8912896 (-20); S754_finite false 9856614 (-20); S754_finite false 9437184 (-21)]].
Definition ex_compose : val := ser [S754_zero false; S754_finite false 9248440 (-17); S754_finite false 16149381 (-17); S754_finite false 15542518 (-18); S754_finite false 14176748 (-17); S754_finite false 13589545 (-18); S754_finite false 9437184 (-16); S754_finite false 11075584 (-18); S754_finite false 15288238 (-17); S754_finite false 8818524 (-16); S754_finite false 13969654 (-16); S754_finite false 12121539 (-16)].
Example conf_compose : close_to (call (Compose [Square; Add]) in_compose None true) ex_compose = true.
Proof. vm_compute. reflexivity. Qed.

Definition in_join : val := Tup [Tup [ser [S754_finite false 16357786 (-22); S754_finite false 10066330 (-21); S754_finite false 9437184 (-21); S754_finite false 16357786 (-22); S754_finite false 15938355 (-22); S754_finite false 15099494 (-22); S754_finite false 14260634 (-22); S754_finite false 10905190 (-21); S754_finite false 9017754 (-21); S754_finite false 12792627 (-21); S754_finite false 8808038 (-21); S754_finite false 12582912 (-22)]; ser [S754_finite false 9437184 (-21); S754_finite false 13212058 (-21); S754_finite false 13421773 (-22); S754_finite false 13631488 (-21); S754_finite false 14260634 (-22); S754_finite false 8808038 (-20); S754_finite false 13002342 (-22); S754_finite false 11744051 (-21); S754_finite false 15309210 (-21); S754_finite false 8912896 (-20); S754_finite false 9856614 (-20); S754_finite false 9437184 (-21)]]; ser [S754_finite false 14050918 (-21); S754_finite false 13421773 (-22); S754_finite false 9437184 (-21); S754_finite false 8808038 (-22); S754_finite false 12582912 (-23); S754_finite false 11324621 (-22); S754_finite false 10276045 (-21); S754_finite false 10066330 (-22); S754_finite false 13002342 (-21); S754_finite false 9646899 (-21); S754_finite false 16357786 (-21); S754_finite false 9646899 (-20)]].
Definition ex_join : val := Tup [ser [S754_finite false 8808038 (-20); S754_finite false 11639194 (-20); S754_finite false 16148070 (-21); S754_finite false 10905190 (-20); S754_finite false 15099494 (-21); S754_finite false 12582912 (-20); S754_finite false 13631488 (-21); S754_finite false 11324621 (-20); S754_finite false 12163482 (-20); S754_finite false 15309210 (-20); S754_finite false 14260634 (-20); S754_finite false 15728640 (-21)]; ser [S754_zero false; S754_finite false 11767644 (-18); S754_finite false 10737418 (-20); S754_finite false 10616832 (-19); S754_finite false 9248440 (-21); S754_finite false 9437184 (-22); S754_finite false 15288238 (-21); S754_finite false 12588155 (-19); S754_finite false 12079596 (-21); S754_finite false 10076815 (-18); S754_finite false 11093934 (-19); S754_finite false 15948841 (-18)]].
Example conf_join : close_to (call (Join [Add; Square]) in_join None true) ex_join = true.
Proof. vm_compute. reflexivity. Qed.

Definition dd_in : val := ser [S754_finite false 13107200 (-17); S754_finite false 13238272 (-17); S754_finite false 13500416 (-17); S754_finite false 13434880 (-17); S754_finite false 13277594 (-17); S754_finite false 13172736 (-17); S754_finite false 13290701 (-17); S754_finite false 13631488 (-17); S754_finite false 13697024 (-17); S754_finite false 13565952 (-17); S754_finite false 13421773 (-17); S754_finite false 13762560 (-17); S754_finite false 13828096 (-17); S754_finite false 14024704 (-17); S754_finite false 13946061 (-17); S754_finite false 13932954 (-17); S754_finite false 13919846 (-17); S754_finite false 14024704 (-17); S754_finite false 14155776 (-17); S754_finite false 14234419 (-17); S754_finite false 14155776 (-17); S754_finite false 14247526 (-17)].
(** drawdown_spec.py test_average_drawdown *)
Example conf_avg_drawdown :
  match call Drawdown dd_in None true with
  | Ok (Tup [Leaf (mkT _ (DF d)); Leaf (mkT _ (DI u))], _, _) =>
      match avg d u with
      | Ok (a, b) => near a (S754_finite true 15399904 (-30)) && near b (S754_finite false 11534336 (-22))
      | Err _ => false
      end
  | _ => false
  end = true.
Proof. vm_compute. reflexivity. Qed.

