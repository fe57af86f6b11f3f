(* Independent mathematical specifications. Nothing here mentions the model. *)
From Coq Require Import ZArith List Reals Binomial.
From Verif Require Import Base Num Vec.
Open Scope Z_scope.

(* the value of the vector l at index i; only meaningful for 0 <= i < len l *)
Definition val (l : list R) (i : Z) : R := at_ 0%R l i.

(* the call terminates normally -- no exception, no undefined behaviour, no
   endless loop -- with a value satisfying Q *)
Definition returns {X} (m : res X) (Q : X -> Prop) : Prop := exists x, m = Ok x /\ Q x.

(* l is a vector of n elements, the i-th being f i *)
Definition is_vec {X} (l : list X) (n : Z) (f : Z -> X) : Prop :=
  len l = n /\ forall i, 0 <= i < n -> get l i = Ok (f i).

(* m is a vector of r rows of c elements each, row i column j being f i j *)
Definition is_mat {X} (m : list (list X)) (r c : Z) (f : Z -> Z -> X) : Prop :=
  len m = r /\ forall i, 0 <= i < r -> exists row, get m i = Ok row /\ is_vec row c (f i).

(** * Polynomials *)

(* binomial coefficient n! / (k! (n-k)!), for 0 <= k <= n *)
Definition Cb (n k : Z) : R := C (Z.to_nat n) (Z.to_nat k).

(* Bernstein polynomial B_{i,p}(t) = C(p,i) t^i (1-t)^(p-i); 0 outside 0 <= i <= p *)
Definition bern (p i : Z) (t : R) : R :=
  if ((0 <=? i) && (i <=? p))%bool
  then (Cb p i * t ^ Z.to_nat i * (1 - t) ^ Z.to_nat (p - i))%R else 0%R.

(* a_0 + a_1 t + ... + a_p t^p *)
Definition poly (a : Z -> R) (p : Z) (t : R) : R :=
  rsum 0 (p + 1) (fun i => a i * t ^ Z.to_nat i)%R.

(** * Knot vectors *)

Definition sorted (l : list R) : Prop :=
  forall i j, 0 <= i -> i <= j -> j < len l -> (val l i <= val l j)%R.

(* the distance below which the library's tolerant comparisons see a and b as equal *)
Definition tol (a b : R) : R := (1 / 1000000 * (1 + Rmax (Rabs a) (Rabs b)))%R.

(* knots U_0 .. U_{n+p+1} of a degree p curve with control points 0..n; the first
   and the last span of the domain [U_p, U_{n+1}] are wider than the tolerance *)
Record curve_knots (p n : Z) (U : list R) : Prop := {
  ck_p : 0 <= p;
  ck_n : p <= n;
  ck_len : len U = n + p + 2;
  ck_sorted : sorted U;
  ck_first : (val U p + tol (val U p) (val U (p + 1)) < val U (p + 1))%R;
  ck_last : (val U n + tol (val U n) (val U (n + 1)) < val U (n + 1))%R }.

Definition in_domain (p n : Z) (U : list R) (t : R) : Prop := (val U p <= t <= val U (n + 1))%R.

(* k is the span of t: non-empty, contains t, and t is its right end only at the domain end *)
Definition span_of (p n : Z) (U : list R) (t : R) (k : Z) : Prop :=
  p <= k <= n /\ (val U k < val U (k + 1))%R /\ (val U k <= t)%R /\
  ((t < val U (k + 1))%R \/ (k = n /\ t = val U (n + 1))).

(** * Cox-de Boor basis functions
    U gives the knots, b the domain end: intervals are closed on the left,
    except that at t = b the interval ending in b is used. *)

(* 0/0 = 0 convention *)
Definition sdiv (x y : R) : R := if Req_EM_T y 0 then 0%R else (x / y)%R.

Definition N0 (U : Z -> R) (b : R) (i : Z) (t : R) : R :=
  if Rlt_dec t b
  then (if Rle_dec (U i) t then if Rlt_dec t (U (i + 1)%Z) then 1 else 0 else 0)%R
  else (if Rlt_dec (U i) t then if Rle_dec t (U (i + 1)%Z) then 1 else 0 else 0)%R.

Fixpoint Nrec (B : Z -> R -> R) (U : Z -> R) (p : nat) (i : Z) (t : R) : R :=
  match p with
  | O => B i t
  | S q =>
      (sdiv (t - U i) (U (i + Z.of_nat p)%Z - U i) * Nrec B U q i t +
       sdiv (U (i + Z.of_nat p + 1)%Z - t) (U (i + Z.of_nat p + 1)%Z - U (i + 1)%Z) * Nrec B U q (i + 1)%Z t)%R
  end.

(* N_{i,p}(t) *)
Definition N (U : Z -> R) (b : R) (p : nat) (i : Z) (t : R) : R := Nrec (N0 U b) U p i t.

(* the polynomial that N_{i,p} equals on the knot span number k *)
Definition Nspan (U : Z -> R) (k : Z) (p : nat) (i : Z) (t : R) : R :=
  Nrec (fun j _ => if j =? k then 1%R else 0%R) U p i t.

(** * Derivatives *)

(* g is the k-th derivative of f, everywhere on the real line *)
Fixpoint nth_deriv (k : nat) (f g : R -> R) : Prop :=
  match k with
  | O => forall t, f t = g t
  | S k' => exists h, (forall t, derivable_pt_lim f t (h t)) /\ nth_deriv k' h g
  end.

(** * Curves and surfaces over control points of any vector type T *)
Section Points.
Context {T : Type} {V : Vec R T}.

(* the i-th control point; only meaningful for 0 <= i < len P *)
Definition pt (P : list T) (i : Z) : T := at_ vzero P i.
(* row i, column j of a control net *)
Definition pt2 (P : list (list T)) (i j : Z) : T := pt (at_ nil P i) j.
(* P has r rows of c points *)
Definition net (r c : Z) (P : list (list T)) : Prop :=
  len P = r /\ forall i, 0 <= i < r -> len (at_ nil P i) = c.

(* sum over lo <= i < hi of w_i P_i *)
Definition comb (lo hi : Z) (w : Z -> R) (P : Z -> T) : T := vsum lo hi (fun i => vscale (w i) (P i)).

(* B-spline curve with n+1 control points: sum of N_{i,p}(t) P_i *)
Definition curve_point (p n : Z) (U : list R) (P : list T) (t : R) : T :=
  comb 0 (n + 1) (fun i => N (val U) (val U (n + 1)) (Z.to_nat p) i t) (pt P).

(* the polynomial curve it follows on knot span k *)
Definition span_curve (k p : Z) (U : list R) (P : list T) (t : R) : T :=
  comb (k - p) (k + 1) (fun i => Nspan (val U) k (Z.to_nat p) i t) (pt P).

(* tensor product surface with (n+1) x (m+1) control points *)
Definition surface_point (p n : Z) (U : list R) (q m : Z) (W : list R) (P : list (list T)) (u v : R) : T :=
  comb 0 (n + 1) (fun i => N (val U) (val U (n + 1)) (Z.to_nat p) i u)
    (fun i => comb 0 (m + 1) (fun j => N (val W) (val W (m + 1)) (Z.to_nat q) j v) (pt2 P i)).

(* the polynomial patch a surface follows on the span ku x kv *)
Definition span_patch (ku p : Z) (U : list R) (kv q : Z) (W : list R) (P : list (list T)) (u v : R) : T :=
  comb (ku - p) (ku + 1) (fun i => Nspan (val U) ku (Z.to_nat p) i u)
    (fun i => comb (kv - q) (kv + 1) (fun j => Nspan (val W) kv (Z.to_nat q) j v) (pt2 P i)).

(* control points of the m-th derivative curve:
   P_i^(0) = P_i, P_i^(m) = (p-m+1)/(U_{i+p+1} - U_{i+m}) (P_{i+1}^(m-1) - P_i^(m-1)) *)
Fixpoint dpt (U : Z -> R) (p : Z) (P : Z -> T) (m : nat) (i : Z) : T :=
  match m with
  | O => P i
  | S m' => vscale (IZR (p - Z.of_nat m') / (U (i + p + 1)%Z - U (i + Z.of_nat m)%Z))%R
                   (vsub (dpt U p P m' (i + 1)) (dpt U p P m' i))
  end.
End Points.

(* affine maps *)
Definition affine {T T' : Type} {V : Vec R T} {V' : Vec R T'} (f : T -> T') : Prop :=
  forall a b x y, (a + b = 1)%R -> f (vadd (vscale a x) (vscale b y)) = vadd (vscale a (f x)) (vscale b (f y)).

(* g is the k-th derivative of the vector function f, coordinate by coordinate *)
Definition vderiv {T : Type} {V : Vec R T} {L : VecL T} (k : Z) (f g : R -> T) : Prop :=
  forall c, nth_deriv (Z.to_nat k) (fun t => co c (f t)) (fun t => co c (g t)).

(* g is the partial derivative of f, k times in the first and l times in the second argument *)
Definition pderiv {T : Type} {V : Vec R T} {L : VecL T} (k l : Z) (f g : R -> R -> T) : Prop :=
  exists h, (forall x, vderiv l (f x) (h x)) /\ (forall y, vderiv k (fun x => h x y) (fun x => g x y)).
