(** Examples for C94 and C95. *)

From Coq Require Import Reals.
From stdpp Require Import prelude gmap list.
From Verif Require Import Base NumModel VecModel LinModel RoundModel PolyModel PyBindModel
  BuilderModel BuilderSpec BuilderExamples PyNetModel PyNetSpec PyNetProofs.

(** Geometries are numbers as in BuilderExamples.v (below 100 domains, from 100 on entities);
    those that are divisible by 7 have no shape. *)
Definition num_dim (g : N) : Z := if bool_decide (g < 100)%N then 3%Z else 2%Z.
Definition num_shape (g : N) : outcome N := if bool_decide (g mod 7 = 0)%N then Throw RuntimeError else Ok g.
(** A kernel that refuses to intersect an empty list. *)
Definition strict {num} (one : num) : BuilderModel.occ N num :=
  mkOcc num_dim (λ _ l _, match l with [] => None | _ => Some (tab_report []) end) (λ _ _, Some (tab_report []))
        (λ _ _, Some 99%N) (λ _, one) one one (λ x _, x).
Notation nstep := (gstep (S := N) (K := N) Datatypes.id (strict tt) in_order num_dim num_shape).
Notation nrun := (grun (S := N) (K := N) Datatypes.id (strict tt) in_order num_dim num_shape).
Definition ok_net {S K} `{Countable K} (o : outcome (option (network S K))) : bool :=
  match o with Ok (Some _) => true | _ => false end.

Lemma num_shape_dim g s : num_shape g = Ok s → dim_of (strict tt) s = num_dim g.
Proof. unfold num_shape. destruct (bool_decide _); [done|]. by intros [= <-]. Qed.

(** A box with id 1 that confines its network, and an entity of another sub-domain. *)
Definition hist94 : list (gcall (G := N) (num := unit)) := [GAddSubDomain true 1 1; GAddEntities [101] 2]%N.
Lemma case94 :
  (∀ e t, common (strict tt) e [] t = None) ∧ num_shape 105 = Throw RuntimeError ∧ num_shape 102 = Ok 102%N ∧
  num_dim 102 = num_dim 105 ∧
  (nstep Plain (nrun Plain hist94) (GAddEntities [102%N] 1%N)).2 = Ok None ∧
  subDomains (reg (nrun Plain hist94)) !! 1%N = Some 1%N ∧ bounds (reg (nrun Plain hist94)) !! 1%N = Some true ∧
  entry (networks (reg (nrun Plain hist94))) 1%N = [] ∧
  ok_net (nstep Plain (nrun Plain hist94) GBuild).2 = true ∧
  (nstep Plain (nrun Plain (hist94 ++ [GAddEntities [105%N] 1%N])) GBuild).2 = Throw RuntimeError.
Proof. split; [done|]. vm_compute. auto 20. Qed.

(** Python: a disk and a quadrilateral. *)
Local Open Scope R_scope.
Definition p0 : V3 R := mkV3 0 0 0.
Definition some_disk : geo R N := GDisk (mkEll p0 p0 p0 p0 1 1).
Definition some_quad : geo R N := GQuad (mkQuad p0 p0 p0 p0 (mkPlane p0 p0 p0 p0) p0 1 true).
Definition some_box : geo R N := GBox (mkBox p0 p0).
Definition code (g : geo R N) : outcome N :=
  match g with GDisk _ => Ok 101%N | GQuad _ => Throw RuntimeError | GBox _ => Ok 1%N | _ => Throw RuntimeError end.
Notation ystep := (py_step (S := N) (K := N) Datatypes.id (strict (num := R) 1) in_order code).
Notation yrun := (py_run (S := N) (K := N) Datatypes.id (strict (num := R) 1) in_order code).

Definition prog95 : list (bmethod * list (bval R N)) :=
  [(MAddSubDomain, [BGeo some_box; BInt 1]);                         (* TypeError: no Id *)
   (MAddConfiningSubDomain, [BGeo some_box; BId 1]);
   (MAddSubDomain, [BGeo some_box; BId 1]);                          (* id taken *)
   (MAddSubDomainEntities, [BList [BGeo some_disk; BGeo some_disk; BGeo some_box; BGeo some_disk]; BId 1])]. (* TypeError *)
Definition results (k : kind) (p : list (bmethod * list (bval R N))) : list (option exn) :=
  (λ n, match nth_error p n with
        | Some (m, args) => match (ystep k (yrun k (take n p)) m args).2 with Returns (Throw x) => Some x | _ => None end
        | None => None
        end) <$> seq 0 (length p).
Lemma case95 : results Contained prog95 = [Some TypeError; None; Some RuntimeError; Some TypeError] ∧
  entry (networks (reg (yrun Contained prog95))) 1%N = [101; 101]%N ∧
  subDomains (reg (yrun Contained prog95)) = {[1%N := 1%N]}.
Proof. vm_compute. auto. Qed.
Lemma case94c : ∃ h',
  (∀ g s, num_shape g = Ok s → dim_of (strict tt) s = num_dim g) ∧ Forall2 (same_call num_shape) hist94 h'.
Proof. exists [AddSubDomain true 1 1; AddEntities [101] 2]%N. split; [exact num_shape_dim|]. by repeat constructor. Qed.

Lemma none_number o : ¬ other_call (A := R) (S := N) MSetEpsilon [BNone] o.
Proof. intros T. inversion T as [|v e Hv| | |]; subst. inversion Hv. Qed.
Lemma two_true : other_call (A := R) (S := N) MSetConfineUnion [BInt 2] (GSetConfineUnion true).
Proof. constructor. by constructor. Qed.
