(** Specification for C94 and C95: calls with geometries and the same calls with their
    shapes; the arguments the Python builders take. *)

From stdpp Require Import prelude gmap list.
From Verif Require Import Base NumModel PyBindModel BuilderModel PyNetModel.

(** Two calls are the same, once with geometries and once with the shapes of these. *)
Definition same_call {G S num} (gshape : G → outcome S) (o : gcall (G := G) (num := num)) (o' : bcall (S := S) (num := num)) : Prop :=
  match o, o' with
  | GAddSubDomain c g id, AddSubDomain c' s id' => c = c' ∧ id = id' ∧ gshape g = Ok s
  | GAddEntities gs id, AddEntities ss id' => id = id' ∧ Forall2 (λ g s, gshape g = Ok s) gs ss
  | GSetConfineUnion v, SetConfineUnion v' => v = v'
  | GSetEpsilon e, SetEpsilon e' => e = e'
  | GSetDefaultEpsilon, SetDefaultEpsilon => True
  | GBuild, Build => True
  | GClear, Clear => True
  | _, _ => False
  end.

(** Sub-domains, their flags, and the entities per id are the same (an id may be known to
    one builder only, if it has no entities). *)
Definition same_content {S K num} `{Countable K} (b b' : builder S K num) : Prop :=
  subDomains (reg b) = subDomains (reg b') ∧ bounds (reg b) = bounds (reg b') ∧
  (∀ id, entry (networks (reg b)) id = entry (networks (reg b')) id) ∧
  confineUnion (reg b) = confineUnion (reg b') ∧ scr b = scr b' ∧ built b = built b' ∧ net b = net b'.

(** The geometries the Python builders take. *)
Definition is_entity {A S} (g : geo A S) : Prop :=
  match g with GDisk _ | GQuad _ | GPolygon _ | GWrap WFace _ => True | _ => False end.
Definition is_domain {A S} (g : geo A S) : Prop :=
  match g with GBox _ | GCylinder _ | GWrap WSolid _ => True | _ => False end.

(** Well-formed calls of the adders, with the C++ call they stand for. *)
Inductive adder {A S num} : bmethod → list (bval A S) → gcall (G := geo A S) (num := num) → Prop :=
| add_entity_to g id : is_entity g → adder MAddSubDomainEntity [BGeo g; BId id] (GAddEntities [g] id)
| add_entities_to gs id : Forall is_entity gs →
    adder MAddSubDomainEntities [BList (BGeo <$> gs); BId id] (GAddEntities gs id)
| add_domain g id : is_domain g → adder MAddSubDomain [BGeo g; BId id] (GAddSubDomain false g id)
| add_confining g id : is_domain g → adder MAddConfiningSubDomain [BGeo g; BId id] (GAddSubDomain true g id).
Inductive plain_adder {A S num} : bmethod → list (bval A S) → gcall (G := geo A S) (num := num) → Prop :=
| add_entity_0 g : is_entity g → plain_adder MAddEntity [BGeo g] (GAddEntities [g] 0)
| add_entities_0 gs : Forall is_entity gs → plain_adder MAddEntities [BList (BGeo <$> gs)] (GAddEntities gs 0).

(** C++ calls that add only what the Python builders take. *)
Definition python_call {A S num} (o : gcall (G := geo A S) (num := num)) : Prop :=
  match o with
  | GAddSubDomain _ g _ => is_domain g
  | GAddEntities gs _ => Forall is_entity gs
  | _ => True
  end.

(** The truth value and the number of an argument: None and zero are false, integers and
    truth values are numbers. *)
Inductive truth {A S} `{Num A} : bval A S → bool → Prop :=
| truth_bool b : truth (BBool b) b
| truth_none : truth BNone false
| truth_zero : truth (BInt 0) false
| truth_int z : (z ≠ 0)%Z → truth (BInt z) true
| truth_float x : truth (BFloat x) (negb (neqb x n0)).
Inductive number {A S} `{Num A} : bval A S → A → Prop :=
| number_float x : number (BFloat x) x
| number_int z : number (BInt z) (nlit z 1)
| number_true : number (BBool true) n1
| number_false : number (BBool false) n0.
(** Well-formed calls of the other methods. *)
Inductive other_call {A S} `{Num A} : bmethod → list (bval A S) → gcall (G := geo A S) (num := A) → Prop :=
| set_union v b : truth v b → other_call MSetConfineUnion [v] (GSetConfineUnion b)
| set_epsilon v e : number v e → other_call MSetEpsilon [v] (GSetEpsilon e)
| set_default : other_call MSetDefaultEpsilon [] GSetDefaultEpsilon
| call_build : other_call MBuild [] GBuild
| call_clear : other_call MClear [] GClear.
