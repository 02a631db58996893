(** Arithmetic of the geometry classes.

    The geometry classes of /repo/frackit/geometry are templates over the coordinate type
    [ctype].  The models are functions over the class [Num]; there are two instances: the
    real numbers, for the theorems, and the primitive floats of Coq (IEEE 754 binary64, the
    arithmetic of double), for counterexamples that are due to rounding.  The trigonometric
    functions are a second class with an instance for the reals only. *)

From Coq Require Import ZArith Reals Bool.
From Coq Require Uint63 PrimFloat.

Class Num (A : Type) := mkNum {
  nadd : A -> A -> A;
  nsub : A -> A -> A;
  nmul : A -> A -> A;
  ndiv : A -> A -> A;
  nopp : A -> A;
  nabs : A -> A;                 (* std::abs *)
  nsqrt : A -> A;                (* std::sqrt *)
  nltb : A -> A -> bool;         (* < *)
  nleb : A -> A -> bool;         (* <= *)
  neqb : A -> A -> bool;         (* == *)
  nsign : A -> bool;             (* std::signbit *)
  nlit : Z -> positive -> A;     (* the literal p/q *)
}.

Class Trig (A : Type) := mkTrig {
  npi : A;                       (* M_PI *)
  ncos : A -> A;
  nsin : A -> A;
  nacos : A -> A;
  natan : A -> A;
}.

Declare Scope num_scope.
Delimit Scope num_scope with num.
Infix "+" := nadd : num_scope.
Infix "-" := nsub : num_scope.
Infix "*" := nmul : num_scope.
Infix "/" := ndiv : num_scope.
Notation "- x" := (nopp x) : num_scope.
Infix "<?" := nltb : num_scope.
Infix "<=?" := nleb : num_scope.
Infix "=?" := neqb : num_scope.
(** a > b is b < a *)
Notation "x >? y" := (nltb y x) (only parsing) : num_scope.
Notation "x >=? y" := (nleb y x) (only parsing) : num_scope.
Notation n0 := (nlit 0 1).
Notation n1 := (nlit 1 1).

(** The reals.  signbit is true for negative numbers (there is no negative zero). *)
Definition Rltb (x y : R) : bool := if Rlt_dec x y then true else false.
Definition Rleb (x y : R) : bool := if Rle_dec x y then true else false.
Definition Reqb (x y : R) : bool := if Req_EM_T x y then true else false.
Definition Rlit (p : Z) (q : positive) : R :=
  match q with xH => IZR p | _ => (IZR p / IZR (Zpos q))%R end.

#[export] Instance R_num : Num R :=
  mkNum R Rplus Rminus Rmult Rdiv Ropp Rabs sqrt Rltb Rleb Reqb (fun x => Rltb x 0%R) Rlit.
(** acos is used on [-1, 1] only (outside, std::acos yields NaN). *)
#[export] Instance R_trig : Trig R := mkTrig R PI cos sin acos atan.

(** double. *)
Definition float_of_Z (z : Z) : PrimFloat.float :=
  match z with
  | Z0 => PrimFloat.zero
  | Zpos _ => PrimFloat.of_uint63 (Uint63.of_Z z)
  | Zneg p => PrimFloat.opp (PrimFloat.of_uint63 (Uint63.of_Z (Zpos p)))
  end.
#[export] Instance F_num : Num PrimFloat.float :=
  mkNum PrimFloat.float PrimFloat.add PrimFloat.sub PrimFloat.mul PrimFloat.div PrimFloat.opp
        PrimFloat.abs PrimFloat.sqrt PrimFloat.ltb PrimFloat.leb PrimFloat.eqb PrimFloat.get_sign
        (fun p q => PrimFloat.div (float_of_Z p) (float_of_Z (Zpos q))).

(** precision.hh:45-53: Precision::confusion() and angular(), for the values of OpenCascade
    (Precision.hxx: Confusion() = 1e-7, Angular() = 1e-12). *)
Definition confusion {A} `{Num A} : A := nlit 1 10000000.
Definition angular {A} `{Num A} : A := nmul (nlit 1 1000000000000) (nlit 100 1).
