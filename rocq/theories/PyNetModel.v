(** The network builders as they are called: with geometries instead of shapes (the
    conversion may throw), and from Python.
    /repo/frackit/entitynetwork/networkbuilder.hh, /repo/frackit/python/entitynetwork/networkbuilder.hh,
    networkbuilderwrappers.hh and /repo/python/frackit/entitynetwork/__init__.py:93-116. *)

From stdpp Require Import prelude gmap list.
From Verif Require Import Base NumModel VecModel LinModel RoundModel PolyModel PyBindModel BuilderModel.

Section Geo.
Context {G S K num : Type} `{EqDecision S} `{Countable K} (key : S → K).
Variable kernel : BuilderModel.occ S num.
Variable ord : nat → list N → list N.
(** getDimension (geometry/dimension.hh:133-137, fixed for every class) and
    OCCUtilities::getShape (occ/breputilities.hh:156-351), which may throw. *)
Variable gdim : G → Z.
Variable gshape : G → outcome S.

Notation registry := (registry S).
Notation builder := (builder S K num).
Notation network := (network S K).

(** addSubDomain and addConfiningSubDomain, networkbuilder.hh:133-147, 159-164.  In an
    assignment the right-hand side is evaluated first (C++17): if getShape throws no entry
    is made, but domainDimension_ has been set. *)
Definition geo_domain (confining : bool) (g : G) (id : N) (r : registry) : registry * outcome unit :=
  let d := gdim g in
  match obind (if bool_decide (networks r ≠ ∅)
               then with_dim (entityDim r) (λ e, if bool_decide (d ≤ e)%Z then Throw RuntimeError else Ok tt)
               else Ok tt) (λ _,
        obind (if bool_decide (subDomains r ≠ ∅)
               then with_dim (domainDim r) (λ e, if bool_decide (d ≠ e) then Throw RuntimeError else Ok tt)
               else Ok tt) (λ _,
        match subDomains r !! id with Some _ => Throw RuntimeError | None => Ok tt end)) with
  | Ok _ =>
      match gshape g with
      | Ok s => (mkReg (<[id := s]> (subDomains r)) (<[id := confining]> (bounds r))
                       (networks r) (Some d) (entityDim r) (confineUnion r), Ok tt)
      | Throw x => (mkReg (subDomains r) (bounds r) (networks r) (Some d) (entityDim r) (confineUnion r), Throw x)
      | UB => (r, UB)
      | Diverge => (r, Diverge)
      end
  | Throw x => (r, Throw x)
  | UB => (r, UB)
  | Diverge => (r, Diverge)
  end.

(** addSubDomainEntity and addEntity, networkbuilder.hh:172-183, 541-552.  In a function call
    the object is evaluated before the arguments (C++17): networks_[id] makes an entry, and
    if getShape throws the entry stays, and so does entityDimension_. *)
Definition geo_entity (g : G) (id : N) (r : registry) : registry * outcome unit :=
  let d := gdim g in
  match obind (if bool_decide (networks r ≠ ∅)
               then with_dim (entityDim r) (λ e, if bool_decide (d ≠ e) then Throw RuntimeError else Ok tt)
               else Ok tt) (λ _,
        if bool_decide (subDomains r ≠ ∅)
        then with_dim (domainDim r) (λ e, if bool_decide (e ≤ d)%Z then Throw RuntimeError else Ok tt)
        else Ok tt) with
  | Ok _ =>
      let nw l := mkReg (subDomains r) (bounds r) (<[id := entry (networks r) id ++ l]> (networks r))
                        (domainDim r) (Some d) (confineUnion r) in
      match gshape g with
      | Ok s => (nw [s], Ok tt)
      | Throw x => (nw [], Throw x)
      | UB => (r, UB)
      | Diverge => (r, Diverge)
      end
  | Throw x => (r, Throw x)
  | UB => (r, UB)
  | Diverge => (r, Diverge)
  end.

(** addSubDomainEntities and addEntities, networkbuilder.hh:191-196, 557-562. *)
Fixpoint geo_entities (gs : list G) (id : N) (r : registry) : registry * outcome unit :=
  match gs with
  | [] => (r, Ok tt)
  | g :: gs => match geo_entity g id r with
               | (r', Ok _) => geo_entities gs id r'
               | (r', x) => (r', x)
               end
  end.

(** The calls; all but those that add geometries are those of BuilderModel.v. *)
Inductive gcall :=
| GAddSubDomain (confining : bool) (g : G) (id : N)
| GAddEntities (gs : list G) (id : N)
| GSetConfineUnion (v : bool)
| GSetEpsilon (e : num)
| GSetDefaultEpsilon
| GBuild
| GClear.

Definition with_reg (b : builder) (x : registry * outcome unit) : builder * outcome (option network) :=
  (mkB x.1 (scr b) (built b) (net b), omapo (λ _, None) x.2).
Definition gstep (k : kind) (b : builder) (o : gcall) : builder * outcome (option network) :=
  match o with
  | GAddSubDomain c g id => with_reg b (geo_domain c g id (reg b))
  | GAddEntities gs id => with_reg b (geo_entities gs id (reg b))
  | GSetConfineUnion v => bstep key kernel ord k b (SetConfineUnion v)
  | GSetEpsilon e => bstep key kernel ord k b (SetEpsilon e)
  | GSetDefaultEpsilon => bstep key kernel ord k b SetDefaultEpsilon
  | GBuild => bstep key kernel ord k b Build
  | GClear => bstep key kernel ord k b Clear
  end.
Definition grun (k : kind) (h : list gcall) : builder := fold_left (λ b o, (gstep k b o).1) h b_init.
End Geo.
Arguments GAddSubDomain {G num}.
Arguments GAddEntities {G num}.
Arguments GSetConfineUnion {G num}.
Arguments GSetEpsilon {G num}.
Arguments GSetDefaultEpsilon {G num}.
Arguments GBuild {G num}.
Arguments GClear {G num}.

(** * The Python classes EntityNetworkBuilder and ContainedEntityNetworkBuilder *)

(** The arguments of the calls: objects of the geometry classes, Id objects, numbers, lists. *)
Inductive bval (A S : Type) :=
| BGeo (g : geo A S) | BId (id : N) | BFloat (x : A) | BInt (z : Z) | BBool (b : bool) | BNone
| BList (l : list (bval A S)).
Arguments BGeo {A S}.
Arguments BId {A S}.
Arguments BFloat {A S}.
Arguments BInt {A S}.
Arguments BBool {A S}.
Arguments BNone {A S}.
Arguments BList {A S}.

Inductive bmethod :=
| MAddEntity | MAddEntities | MAddSubDomainEntity | MAddSubDomainEntities
| MAddSubDomain | MAddConfiningSubDomain
| MSetConfineUnion | MSetEpsilon | MSetDefaultEpsilon | MBuild | MClear | MNetwork | MIsBuilt.

(** What a call gives: an AttributeError if the class has no such method. *)
Inductive pyres (S K : Type) `{Countable K} := NoAttribute | Returns (o : outcome (option (network S K))).
Arguments NoAttribute {S K _ _}.
Arguments Returns {S K _ _}.

Section Py.
Context {A S K : Type} `{Num A} `{EqDecision S} `{Countable K} (key : S → K).
Variable kernel : BuilderModel.occ S A.
Variable ord : nat → list N → list N.
Variable oc_shape : geo A S → outcome S.

(** myDimension() of the classes and geometry/dimension.hh:70-119 for the shapes (compounds
    and general shapes have none; they are not accepted by the adders). *)
Definition geo_dim (g : geo A S) : Z :=
  match g with
  | GSegment _ | GLine _ | GCircle _ | GEllipse _ | GArc _ => 1
  | GPlane _ | GDisk _ | GTriangle _ | GQuad _ | GPolygon _ | GSurface _ => 2
  | GBox _ | GCylinder _ | GHollow _ | GSphere _ => 3
  | GWrap w _ => match w with WEdge | WWire => 1 | WFace | WShell => 2 | WSolid => 3 | _ => 0 end
  | _ => 0
  end%Z.
(** python/geometry/brepwrapper.hh:138-150 (getUnwrappedShape), then getShape: a shape is
    its own shape, occ/breputilities.hh:353-360. *)
Definition geo_shape (g : geo A S) : outcome S :=
  match g with GWrap _ s => Ok s | _ => oc_shape g end.

(** python/entitynetwork/networkbuilder.hh:67-73, 75-91: the registered overloads. *)
Definition domain_classes : list cls := [CBox; CCylinder; CWrap WSolid].
Definition entity_classes : list cls := [CDisk; CQuad; CPolygon; CWrap WFace].
Definition geo_arg (cs : list cls) (v : bval A S) : option (geo A S) :=
  match v with BGeo g => if existsb (is_a (class_of g)) cs then Some g else None | _ => None end.

(** The casters for Id, double and bool (see PyBindModel.v).  Id has no implicit conversion
    from int: python/common/id.hh:31-38. *)
Definition id_arg (v : bval A S) : option N := match v with BId id => Some id | _ => None end.
Definition num_arg (v : bval A S) : option A :=
  match v with
  | BFloat x => Some x
  | BInt z => Some (nlit z 1)
  | BBool b => Some (if b then n1 else n0)
  | _ => None
  end.
Definition bool_arg (v : bval A S) : option bool :=
  match v with
  | BBool b => Some b
  | BNone => Some false
  | BInt z => Some (negb (Z.eqb z 0))
  | BFloat x => Some (negb (neqb x n0))
  | _ => None
  end.

Notation builder := (builder S K A).
Notation pyres := (pyres S K).

Definition cpp (k : kind) (b : builder) (o : option (gcall (G := geo A S))) : builder * pyres :=
  match o with
  | Some o => let '(b', r) := gstep key kernel ord geo_dim geo_shape k b o in (b', Returns r)
  | None => (b, Returns (Throw TypeError))
  end.

(** networkbuilderwrappers.hh:39-45, 63-65 and python/entitynetwork/networkbuilder.hh:51-65 *)
Definition py_entity (k : kind) (b : builder) (e i : bval A S) : builder * pyres :=
  cpp k b (match geo_arg entity_classes e, id_arg i with
           | Some g, Some id => Some (GAddEntities [g] id)
           | _, _ => None
           end).
(** networkbuilderwrappers.hh:47-53, 67-73 and networkbuilder.hh:44-49 *)
Definition py_domain (k : kind) (b : builder) (conf : bool) (d i : bval A S) : builder * pyres :=
  cpp k b (match geo_arg domain_classes d, id_arg i with
           | Some g, Some id => Some (GAddSubDomain conf g id)
           | _, _ => None
           end).
(** __init__.py:96-106, 111-116: the loop stops at the first exception *)
Fixpoint py_entities (k : kind) (b : builder) (es : list (bval A S)) (i : bval A S) : builder * pyres :=
  match es with
  | [] => (b, Returns (Ok None))
  | e :: es => match py_entity k b e i with
               | (b', Returns (Ok _)) => py_entities k b' es i
               | r => r
               end
  end.

(** The methods of the two classes, python/entitynetwork/networkbuilder.hh:95-135 and
    __init__.py:93-116.  network() and isBuilt() are not bound; addEntity and addEntities are
    bound for EntityNetworkBuilder only.  addEntity is addSubDomainEntity with Id(0)
    (networkbuilderwrappers.hh:43-45).  The network is returned by value (the default policy
    of pybind11 copies what is returned by reference).  A wrong number of arguments is a
    TypeError; keyword arguments are left out. *)
Definition py_step (k : kind) (b : builder) (m : bmethod) (args : list (bval A S)) : builder * pyres :=
  let type_error := (b, Returns (Throw TypeError)) in
  match m, args with
  | MNetwork, _ | MIsBuilt, _ => (b, NoAttribute)
  | MAddEntity, _ | MAddEntities, _ =>
      match k with
      | Contained => (b, NoAttribute)
      | Plain => match m, args with
                 | MAddEntity, [e] => py_entity k b e (BId 0)
                 | MAddEntities, [BList es] => py_entities k b es (BId 0)
                 | _, _ => type_error
                 end
      end
  | MAddSubDomainEntity, [e; i] => py_entity k b e i
  | MAddSubDomainEntities, [BList es; i] => py_entities k b es i
  | MAddSubDomain, [d; i] => py_domain k b false d i
  | MAddConfiningSubDomain, [d; i] => py_domain k b true d i
  | MSetConfineUnion, [v] => cpp k b (GSetConfineUnion <$> bool_arg v)
  | MSetEpsilon, [v] => cpp k b (GSetEpsilon <$> num_arg v)
  | MSetDefaultEpsilon, [] => cpp k b (Some GSetDefaultEpsilon)
  | MBuild, [] => cpp k b (Some GBuild)
  | MClear, [] => cpp k b (Some GClear)
  | _, _ => type_error
  end.

(** A program: exceptions are caught, the builder is used on. *)
Definition py_run (k : kind) (p : list (bmethod * list (bval A S))) : builder :=
  fold_left (λ b c, (py_step k b c.1 c.2).1) p b_init.
End Py.
