(* Tests, not proofs: the binary64 instance of the model reproduces the values
   asserted in /repo/tests (T_MathUtils.cpp, T_BasisFunctions.cpp, T_Polynomials.cpp). *)
From Coq Require Import ZArith List Floats.
From Verif Require Import Base Num M_MathUtils M_Polynomials.
Import ListNotations.
Open Scope Z_scope.
Definition kv : list float := [0;0;0;1;2;3;4;4;5;5;5]%float.
Example t_horner : Horner 2 [1;2;3]%float 0.5%float = Ok 2.75%float.
Proof. vm_compute. reflexivity. Qed.
Example t_allbern : AllBernstein 4 0.5%float = Ok [0.0625; 0.25; 0.375; 0.25; 0.0625]%float.
Proof. vm_compute. reflexivity. Qed.
(* T_BasisFunctions.cpp: span 4 at 2.5 *)
Example t_span : GetKnotSpanIndex 2 kv 2.5%float = Ok 4.
Proof. vm_compute. reflexivity. Qed.
Example t_basis : (let! b := BasisFunctions 4 2 kv 2.5%float in
  let! x := getu b 0 in let! y := getu b 1 in let! z := getu b 2 in Ok (x, y, z)) = Ok (0.125, 0.75, 0.125)%float.
Proof. vm_compute. reflexivity. Qed.
Example t_onebasis : map (fun i => OneBasisFunction i 2 kv 2.5%float) [1;2;3;4;5]
  = [Ok 0; Ok 0.125; Ok 0.75; Ok 0.125; Ok 0]%float.
Proof. vm_compute. reflexivity. Qed.
Example t_btp : BezierToPowerMatrix (A := float) 3 =
  Ok [[1;0;0;0];[-3;3;0;0];[3;-6;3;0];[-1;3;-3;1]]%float.
Proof. vm_compute. reflexivity. Qed.
Example t_binom : (Binomial (A := float) 25 7, Binomial (A := float) 20 10, Factorial 20)
  = (Ok 480700%float, Ok 184756%float, Ok 2432902008176640000).
Proof. vm_compute. reflexivity. Qed.
