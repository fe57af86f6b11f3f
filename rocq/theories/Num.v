(* The C++ type double, as a class with two instances: exact real arithmetic
   (theorems) and IEEE binary64 (execution, bit-exact refutations). *)
From Coq Require Import ZArith Reals Bool Lra Psatz.
From Coq Require PrimFloat Uint63.
From Verif Require Import Base.
Open Scope Z_scope.

Class Num (A : Type) : Type := {
  n0 : A;
  n1 : A;
  nadd : A -> A -> A;
  nsub : A -> A -> A;
  nmul : A -> A -> A;
  nopp : A -> A;
  nabs : A -> A;
  ndiv : A -> A -> res A;   (* exact: NonFin on a zero divisor; IEEE: always Ok *)
  nsqrt : A -> res A;       (* exact: NonFin on a negative argument *)
  nltb : A -> A -> bool;
  nleb : A -> A -> bool;
  neqb : A -> A -> bool;
  nofZ : Z -> A;            (* int -> double *)
  nlit : Z -> positive -> A;(* the literal n/d, correctly rounded *)
  nisnan : A -> bool;
  nisinf : A -> bool
}.

(* transcendental functions: exact instance only *)
Class Trig (A : Type) : Type := {
  tpi : A;
  tcos : A -> A;
  tsin : A -> A;
  ttan : A -> A;
  tacos : A -> A;
  tatan2 : A -> A -> A
}.

Declare Scope num_scope.
Delimit Scope num_scope with num.
Infix "+" := nadd : num_scope.
Infix "-" := nsub : num_scope.
Infix "*" := nmul : num_scope.
Notation "- x" := (nopp x) : num_scope.
Infix "<?" := nltb : num_scope.
Infix "<=?" := nleb : num_scope.
Infix "=?" := neqb : num_scope.

(* std::max(a, b) is (a < b) ? b : a; std::min(a, b) is (b < a) ? b : a *)
Definition nmax {A} `{Num A} (a b : A) : A := if nltb a b then b else a.
Definition nmin {A} `{Num A} (a b : A) : A := if nltb b a then b else a.

(* std::pow(x, n) for a non-negative integer exponent, as repeated product *)
Fixpoint npow {A} `{Num A} (x : A) (n : nat) : A :=
  match n with O => n1 | S n' => nmul x (npow x n') end.

(* include/Constants.h:23-28 *)
Definition DoubleEpsilon {A} `{Num A} : A := nlit 1 1000000.
Definition DistanceEpsilon {A} `{Num A} : A := nlit 1 10000.
Definition AngleEpsilon {A} `{Num A} : A := nlit 1 100.
Definition MaxDistance {A} `{Num A} : A := nofZ 1000000000.
Definition NURBSMaxDegree : Z := 7.

(* ------------------------------------------------------------------ *)
(** * Exact instance *)

Definition Rltb (x y : R) : bool := if Rlt_dec x y then true else false.
Definition Rleb (x y : R) : bool := if Rle_dec x y then true else false.
Definition Reqb (x y : R) : bool := if Req_EM_T x y then true else false.

Definition Rdiv_ (x y : R) : res R := if Req_EM_T y 0%R then NonFin else Ok (x / y)%R.
Definition Rsqrt_ (x : R) : res R := if Rlt_dec x 0%R then NonFin else Ok (sqrt x).

Global Instance Num_R : Num R := {|
  n0 := 0%R; n1 := 1%R;
  nadd := Rplus; nsub := Rminus; nmul := Rmult; nopp := Ropp; nabs := Rabs;
  ndiv := Rdiv_; nsqrt := Rsqrt_;
  nltb := Rltb; nleb := Rleb; neqb := Reqb;
  nofZ := IZR;
  nlit := fun n d => (IZR n / IZR (Zpos d))%R;
  nisnan := fun _ => false; nisinf := fun _ => false
|}.

(* C atan2 *)
Definition Ratan2 (y x : R) : R :=
  if Rlt_dec 0 x then atan (y / x)
  else if Rlt_dec x 0 then (if Rle_dec 0 y then atan (y / x) + PI else atan (y / x) - PI)%R
  else if Rlt_dec 0 y then (PI / 2)%R
  else if Rlt_dec y 0 then (- (PI / 2))%R
  else 0%R.

Global Instance Trig_R : Trig R := {|
  tpi := PI; tcos := cos; tsin := sin; ttan := tan; tacos := acos; tatan2 := Ratan2
|}.

Lemma Rltb_spec x y : BoolSpec (x < y)%R (y <= x)%R (Rltb x y).
Proof. unfold Rltb. destruct (Rlt_dec x y); constructor; lra. Qed.
Lemma Rleb_spec x y : BoolSpec (x <= y)%R (y < x)%R (Rleb x y).
Proof. unfold Rleb. destruct (Rle_dec x y); constructor; lra. Qed.
Lemma Reqb_spec x y : BoolSpec (x = y) (x <> y) (Reqb x y).
Proof. unfold Reqb. destruct (Req_EM_T x y); constructor; auto. Qed.

Lemma Rltb_true x y : Rltb x y = true <-> (x < y)%R.
Proof. destruct (Rltb_spec x y); split; intros; try discriminate; auto; lra. Qed.
Lemma Rltb_false x y : Rltb x y = false <-> (y <= x)%R.
Proof. destruct (Rltb_spec x y); split; intros; try discriminate; auto; lra. Qed.
Lemma Rleb_true x y : Rleb x y = true <-> (x <= y)%R.
Proof. destruct (Rleb_spec x y); split; intros; try discriminate; auto; lra. Qed.
Lemma Rleb_false x y : Rleb x y = false <-> (y < x)%R.
Proof. destruct (Rleb_spec x y); split; intros; try discriminate; auto; lra. Qed.
Lemma Reqb_true x y : Reqb x y = true <-> x = y.
Proof. destruct (Reqb_spec x y); split; intros; try discriminate; auto; tauto. Qed.
Lemma Reqb_false x y : Reqb x y = false <-> x <> y.
Proof. destruct (Reqb_spec x y); split; intros; try discriminate; auto; tauto. Qed.

Lemma Rdiv_ok x y : y <> 0%R -> Rdiv_ x y = Ok (x / y)%R.
Proof. intros H. unfold Rdiv_. destruct (Req_EM_T y 0); [tauto|reflexivity]. Qed.
Lemma Rdiv_zero x y : y = 0%R -> Rdiv_ x y = NonFin.
Proof. intros H. unfold Rdiv_. destruct (Req_EM_T y 0); [reflexivity|tauto]. Qed.
Lemma Rsqrt_ok x : (0 <= x)%R -> Rsqrt_ x = Ok (sqrt x).
Proof. intros H. unfold Rsqrt_. destruct (Rlt_dec x 0); [lra|reflexivity]. Qed.

Lemma nmax_R x y : nmax x y = Rmax x y.
Proof.
  unfold nmax; cbn. destruct (Rltb_spec x y).
  - rewrite Rmax_right; lra.
  - rewrite Rmax_left; lra.
Qed.
Lemma nmin_R x y : nmin x y = Rmin x y.
Proof.
  unfold nmin; cbn. destruct (Rltb_spec y x).
  - rewrite Rmin_right; lra.
  - rewrite Rmin_left; lra.
Qed.
Lemma npow_R x n : npow x n = (x ^ n)%R.
Proof. induction n; cbn; [reflexivity|]. rewrite IHn. reflexivity. Qed.

(* bring class operations at R down to Rplus, Rmult, ... *)
Ltac num :=
  cbn [nadd nsub nmul nopp nabs ndiv nsqrt nltb nleb neqb nofZ nlit n0 n1 nisnan nisinf
       Num_R tpi tcos tsin ttan tacos tatan2 Trig_R] in *.
Ltac numg :=
  cbn [nadd nsub nmul nopp nabs ndiv nsqrt nltb nleb neqb nofZ nlit n0 n1 nisnan nisinf
       Num_R tpi tcos tsin ttan tacos tatan2 Trig_R].

(* ------------------------------------------------------------------ *)
(** * IEEE binary64 instance *)

Definition f_ofZ (z : Z) : PrimFloat.float :=
  match z with
  | Z0 => PrimFloat.zero
  | Zpos _ => PrimFloat.of_uint63 (Uint63.of_Z z)
  | Zneg p => PrimFloat.opp (PrimFloat.of_uint63 (Uint63.of_Z (Zpos p)))
  end.

Global Instance Num_F : Num PrimFloat.float | 100 := {|
  n0 := PrimFloat.zero; n1 := PrimFloat.one;
  nadd := PrimFloat.add; nsub := PrimFloat.sub; nmul := PrimFloat.mul;
  nopp := PrimFloat.opp; nabs := PrimFloat.abs;
  ndiv := fun x y => Ok (PrimFloat.div x y);
  nsqrt := fun x => Ok (PrimFloat.sqrt x);
  nltb := PrimFloat.ltb; nleb := PrimFloat.leb; neqb := PrimFloat.eqb;
  nofZ := f_ofZ;
  nlit := fun n d => PrimFloat.div (f_ofZ n) (f_ofZ (Zpos d));
  nisnan := PrimFloat.is_nan; nisinf := PrimFloat.is_infinity
|}.
