(** Properties C94 and C95 (adding geometries to the network builders, and the builders of
    the Python module).  [gdim] is the dimension of a geometry, [gshape] its conversion to a
    shape, which may throw; [kernel] and [ord] as in BuilderProps.v. *)

From Coq Require Import Reals.
From stdpp Require Import prelude gmap list.
From Verif Require Import Base NumModel PyBindModel BuilderModel BuilderSpec PyNetModel PyNetSpec PyNetProofs PyNetExamples.

(** C94: as long as the geometries have shapes of their dimension, a builder behaves as the
    one that is given these shapes; so C22-C27 hold for it. *)
Theorem c94_converted {G S K num} `{EqDecision S} `{Countable K} (key : S → K) (kernel : BuilderModel.occ S num)
    (ord : nat → list N → list N) (gdim : G → Z) (gshape : G → outcome S) k h h' o o' :
  (∀ g s, gshape g = Ok s → dim_of kernel s = gdim g) →
  Forall2 (same_call gshape) h h' → same_call gshape o o' →
  gstep key kernel ord gdim gshape k (grun key kernel ord gdim gshape k h) o =
  bstep key kernel ord k (brun key kernel ord k h') o'.
Proof. exact (λ D, c94_converted_lemma key kernel ord gdim gshape D k h h' o o'). Qed.
Print Assumptions c94_converted.
Example c94_converted_case : ∃ h',
  (∀ g s, num_shape g = Ok s → dim_of (strict tt) s = num_dim g) ∧ Forall2 (same_call num_shape) hist94 h'.
Proof. exact case94c. Qed.

(** C94: a sub-domain that has no shape is not added, and nothing else changes, except for
    the recorded dimension if there are no sub-domains. *)
Theorem c94_sub_domain {G S K num} `{EqDecision S} `{Countable K} (key : S → K) (kernel : BuilderModel.occ S num)
    (ord : nat → list N → list N) (gdim : G → Z) (gshape : G → outcome S) k h c g id x :
  gshape g = Throw x →
  let b := grun key kernel ord gdim gshape k h in
  let '(b', o) := gstep key kernel ord gdim gshape k b (GAddSubDomain c g id) in
  (o = Throw x ∨ o = Throw RuntimeError) ∧ same_content b' b ∧
  networks (reg b') = networks (reg b) ∧ entityDim (reg b') = entityDim (reg b) ∧
  (subDomains (reg b) ≠ ∅ → b' = b).
Proof. exact (c94_domain_lemma key kernel ord gdim gshape k h c g id x). Qed.
Print Assumptions c94_sub_domain.

(** C94: an entity that has no shape is not added, and the entities and sub-domains stay as
    they are; nothing at all changes if there are entities with the same id.  Missing:
    what happens if there are none, see below. *)
Theorem c94_entity_partial {G S K num} `{EqDecision S} `{Countable K} (key : S → K) (kernel : BuilderModel.occ S num)
    (ord : nat → list N → list N) (gdim : G → Z) (gshape : G → outcome S) k h g id x :
  gshape g = Throw x →
  let b := grun key kernel ord gdim gshape k h in
  let '(b', o) := gstep key kernel ord gdim gshape k b (GAddEntities [g] id) in
  (o = Throw x ∨ o = Throw RuntimeError) ∧ same_content b' b ∧
  domainDim (reg b') = domainDim (reg b) ∧ (entry (networks (reg b)) id ≠ [] → b' = b).
Proof. exact (c94_entity_lemma key kernel ord gdim gshape k h g id x). Qed.
Print Assumptions c94_entity_partial.
Example c94_failing_case : num_shape 105 = Throw RuntimeError ∧ num_shape 7 = Throw RuntimeError.
Proof. exact (conj eq_refl eq_refl). Qed.

(** C94 does not hold: an entity that could not be added to an empty builder makes it reject
    all entities of other dimensions, and all sub-domains that are not of a higher dimension. *)
Theorem c94_leftover_refuted {G S K num} `{EqDecision S} `{Countable K} (key : S → K) (kernel : BuilderModel.occ S num)
    (ord : nat → list N → list N) (gdim : G → Z) (gshape : G → outcome S) k g x id :
  gshape g = Throw x →
  let b := grun key kernel ord gdim gshape k [GAddEntities [g] id] in
  (gstep key kernel ord gdim gshape k b_init (GAddEntities [g] id)).2 = Throw x ∧ same_content b b_init ∧
  (∀ g' s id', gshape g' = Ok s → gdim g' ≠ gdim g →
     (gstep key kernel ord gdim gshape k b_init (GAddEntities [g'] id')).2 = Ok None ∧
     (gstep key kernel ord gdim gshape k b (GAddEntities [g'] id')).2 = Throw RuntimeError) ∧
  (∀ c g' s id', gshape g' = Ok s → (gdim g' ≤ gdim g)%Z →
     (gstep key kernel ord gdim gshape k b_init (GAddSubDomain c g' id')).2 = Ok None ∧
     (gstep key kernel ord gdim gshape k b (GAddSubDomain c g' id')).2 = Throw RuntimeError).
Proof. exact (c94_leftover_lemma key kernel ord gdim gshape k g x id). Qed.
Print Assumptions c94_leftover_refuted.

(** C94 does not hold: after a failed addition of an entity to a confining sub-domain without
    entities build() never succeeds.  (Boolean operations of OpenCascade fail on empty lists
    of arguments.) *)
Theorem c94_build_refuted {G S K num} `{EqDecision S} `{Countable K} (key : S → K) (kernel : BuilderModel.occ S num)
    (ord : nat → list N → list N) (gdim : G → Z) (gshape : G → outcome S) (Hord : ∀ i l, ord i l ≡ₚ l) k h g g' s id sd x :
  let b := grun key kernel ord gdim gshape k h in
  let b' := (gstep key kernel ord gdim gshape k b (GAddEntities [g] id)).1 in
  (∀ e t, common kernel e [] t = None) →
  gshape g = Throw x → gshape g' = Ok s → gdim g' = gdim g →
  (gstep key kernel ord gdim gshape k b (GAddEntities [g'] id)).2 = Ok None →
  subDomains (reg b) !! id = Some sd → bounds (reg b) !! id = Some true → entry (networks (reg b)) id = [] →
  ∀ n, (gstep key kernel ord gdim gshape k b' GBuild).2 ≠ Ok n.
Proof. exact (c94_build_lemma key kernel ord gdim gshape Hord k h g g' s id sd x). Qed.
Print Assumptions c94_build_refuted.
(** Without the failed addition the network is built. *)
Example c94_build_case :
  (∀ e t, common (strict tt) e [] t = None) ∧ num_shape 105 = Throw RuntimeError ∧ num_shape 102 = Ok 102%N ∧
  num_dim 102 = num_dim 105 ∧
  (nstep Plain (nrun Plain hist94) (GAddEntities [102%N] 1%N)).2 = Ok None ∧
  subDomains (reg (nrun Plain hist94)) !! 1%N = Some 1%N ∧ bounds (reg (nrun Plain hist94)) !! 1%N = Some true ∧
  entry (networks (reg (nrun Plain hist94))) 1%N = [] ∧
  ok_net (nstep Plain (nrun Plain hist94) GBuild).2 = true ∧
  (nstep Plain (nrun Plain (hist94 ++ [GAddEntities [105%N] 1%N])) GBuild).2 = Throw RuntimeError.
Proof. exact case94. Qed.

(** C95: well-formed calls of the Python builders are those of C++. *)
Theorem c95_adders {A S K} `{Num A} `{EqDecision S} `{Countable K} (key : S → K) (kernel : BuilderModel.occ S A)
    (ord : nat → list N → list N) (oc_shape : geo A S → outcome S) k b m args o :
  adder m args o ∨ (k = Plain ∧ plain_adder m args o) →
  py_step key kernel ord oc_shape k b m args =
  let '(b', r) := gstep key kernel ord geo_dim (geo_shape oc_shape) k b o in (b', Returns r).
Proof. exact (c95_adders_lemma key kernel ord oc_shape k b m args o). Qed.
Print Assumptions c95_adders.

(** C95: other arguments are a TypeError, and the builder stays as it is. *)
Theorem c95_type_error {A S K} `{Num A} `{EqDecision S} `{Countable K} (key : S → K) (kernel : BuilderModel.occ S A)
    (ord : nat → list N → list N) (oc_shape : geo A S → outcome S) k b m args :
  m = MAddSubDomainEntity ∨ m = MAddSubDomain ∨ m = MAddConfiningSubDomain ∨ (m = MAddEntity ∧ k = Plain) →
  (∀ o, ¬ adder (num := A) m args o ∧ ¬ plain_adder (num := A) m args o) →
  py_step key kernel ord oc_shape k b m args = (b, Returns (Throw TypeError)).
Proof. exact (c95_type_error_lemma key kernel ord oc_shape k b m args). Qed.
Print Assumptions c95_type_error.

(** C95: so are the calls of the other methods; None, zero and 0.0 are false, integers and
    truth values are taken as tolerances; ... *)
Theorem c95_others {A S K} `{Num A} `{EqDecision S} `{Countable K} (key : S → K) (kernel : BuilderModel.occ S A)
    (ord : nat → list N → list N) (oc_shape : geo A S → outcome S) k b m args o :
  other_call m args o →
  py_step key kernel ord oc_shape k b m args =
  let '(b', r) := gstep key kernel ord geo_dim (geo_shape oc_shape) k b o in (b', Returns r).
Proof. exact (c95_others_lemma key kernel ord oc_shape k b m args o). Qed.
Print Assumptions c95_others.
(** ... other arguments of these are a TypeError. *)
Theorem c95_others_error {A S K} `{Num A} `{EqDecision S} `{Countable K} (key : S → K) (kernel : BuilderModel.occ S A)
    (ord : nat → list N → list N) (oc_shape : geo A S → outcome S) k b m args :
  m = MSetConfineUnion ∨ m = MSetEpsilon ∨ m = MSetDefaultEpsilon ∨ m = MBuild ∨ m = MClear →
  (∀ o, ¬ other_call m args o) →
  py_step key kernel ord oc_shape k b m args = (b, Returns (Throw TypeError)).
Proof. exact (c95_others_error_lemma key kernel ord oc_shape k b m args). Qed.
Print Assumptions c95_others_error.
Example c95_others_case : other_call (A := R) (S := N) MSetConfineUnion [BInt 2] (GSetConfineUnion true) ∧
  (∀ o, ¬ other_call (A := R) (S := N) MSetEpsilon [BNone] o).
Proof. exact (conj two_true none_number). Qed.

(** C95: a face of OpenCascade is added as it is. *)
Theorem c95_shapes {A S K} `{Num A} `{EqDecision S} `{Countable K} (key : S → K) (kernel : BuilderModel.occ S A)
    (ord : nat → list N → list N) (oc_shape : geo A S → outcome S) k p s id :
  let b := py_run key kernel ord oc_shape k p in
  let '(b', r) := py_step key kernel ord oc_shape k b MAddSubDomainEntity [BGeo (GWrap WFace s); BId id] in
  r = Returns (Ok None) ∧ ∀ i, entry (networks (reg b')) i = entry (networks (reg b)) i ++ if bool_decide (i = id) then [s] else [].
Proof. exact (c95_shapes_lemma key kernel ord oc_shape k p s id). Qed.
Print Assumptions c95_shapes.

(** C95: every program is a sequence of calls of C++ that add disks, quadrilaterals,
    polygons and faces to boxes, cylinders and solids. *)
Theorem c95_history {A S K} `{Num A} `{EqDecision S} `{Countable K} (key : S → K) (kernel : BuilderModel.occ S A)
    (ord : nat → list N → list N) (oc_shape : geo A S → outcome S) k p :
  ∃ h, Forall python_call h ∧
  py_run key kernel ord oc_shape k p = grun key kernel ord geo_dim (geo_shape oc_shape) k h.
Proof. exact (c95_history_lemma key kernel ord oc_shape k p). Qed.
Print Assumptions c95_history.

(** C95: after every program entities are accepted for every id, ... *)
Theorem c95_entities {A S K} `{Num A} `{EqDecision S} `{Countable K} (key : S → K) (kernel : BuilderModel.occ S A)
    (ord : nat → list N → list N) (oc_shape : geo A S → outcome S) k p gs ss id :
  Forall is_entity gs → Forall2 (λ g s, geo_shape oc_shape g = Ok s) gs ss →
  let b := py_run key kernel ord oc_shape k p in
  let '(b', r) := py_step key kernel ord oc_shape k b MAddSubDomainEntities [BList (BGeo <$> gs); BId id] in
  r = Returns (Ok None) ∧ subDomains (reg b') = subDomains (reg b) ∧ bounds (reg b') = bounds (reg b) ∧
  ∀ i, entry (networks (reg b')) i = entry (networks (reg b)) i ++ if bool_decide (i = id) then ss else [].
Proof. exact (c95_entities_lemma key kernel ord oc_shape k p gs ss id). Qed.
Print Assumptions c95_entities.

(** ... and sub-domains for every id that is free. *)
Theorem c95_domains {A S K} `{Num A} `{EqDecision S} `{Countable K} (key : S → K) (kernel : BuilderModel.occ S A)
    (ord : nat → list N → list N) (oc_shape : geo A S → outcome S) k p (c : bool) g s id :
  is_domain g → geo_shape oc_shape g = Ok s →
  let b := py_run key kernel ord oc_shape k p in
  let '(b', r) := py_step key kernel ord oc_shape k b (if c then MAddConfiningSubDomain else MAddSubDomain) [BGeo g; BId id] in
  match subDomains (reg b) !! id with
  | Some _ => r = Returns (Throw RuntimeError) ∧ b' = b
  | None => r = Returns (Ok None) ∧ networks (reg b') = networks (reg b) ∧
            subDomains (reg b') = <[id := s]> (subDomains (reg b)) ∧ bounds (reg b') = <[id := c]> (bounds (reg b))
  end.
Proof. exact (c95_domains_lemma key kernel ord oc_shape k p c g s id). Qed.
Print Assumptions c95_domains.
Example c95_case : is_entity some_disk ∧ is_entity some_quad ∧ is_domain some_box ∧
  geo_shape code some_disk = Ok 101%N ∧ geo_shape code some_box = Ok 1%N ∧
  results Contained prog95 = [Some TypeError; None; Some RuntimeError; Some TypeError] ∧
  entry (networks (reg (yrun Contained prog95))) 1%N = [101; 101]%N ∧
  subDomains (reg (yrun Contained prog95)) = {[1%N := 1%N]}.
Proof. exact (conj I (conj I (conj I (conj eq_refl (conj eq_refl case95))))). Qed.

(** C95 does not hold: a list with something else in it is added up to there. *)
Theorem c95_list_refuted {A S K} `{Num A} `{EqDecision S} `{Countable K} (key : S → K) (kernel : BuilderModel.occ S A)
    (ord : nat → list N → list N) (oc_shape : geo A S → outcome S) k b gs v rest id :
  Forall is_entity gs → (∀ g, is_entity g → v ≠ BGeo g) →
  (gstep key kernel ord geo_dim (geo_shape oc_shape) k b (GAddEntities gs id)).2 = Ok None →
  py_step key kernel ord oc_shape k b MAddSubDomainEntities [BList ((BGeo <$> gs) ++ v :: rest); BId id] =
  ((gstep key kernel ord geo_dim (geo_shape oc_shape) k b (GAddEntities gs id)).1, Returns (Throw TypeError)).
Proof. exact (c95_list_lemma key kernel ord oc_shape k b gs v rest id). Qed.
Print Assumptions c95_list_refuted.

(** C95 does not hold: the contained builder has neither addEntity nor addEntities, and no
    builder has network() or isBuilt(). *)
Theorem c95_methods_refuted {A S K} `{Num A} `{EqDecision S} `{Countable K} (key : S → K) (kernel : BuilderModel.occ S A)
    (ord : nat → list N → list N) (oc_shape : geo A S → outcome S) (b : builder S K A) (args : list (bval A S)) :
  py_step key kernel ord oc_shape Contained b MAddEntity args = (b, NoAttribute) ∧
  py_step key kernel ord oc_shape Contained b MAddEntities args = (b, NoAttribute) ∧
  (∀ k : kind, py_step key kernel ord oc_shape k b MNetwork args = (b, NoAttribute) ∧
               py_step key kernel ord oc_shape k b MIsBuilt args = (b, NoAttribute)).
Proof. exact (c95_contained_lemma key kernel ord oc_shape b args). Qed.
Print Assumptions c95_methods_refuted.
