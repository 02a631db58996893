(** Properties C22-C27, C65, C66 (network builders).  [kernel] is the geometry kernel,
    [ord] the order in which the hash maps are traversed. *)

From stdpp Require Import prelude gmap list.
From Verif Require Import Base BuilderModel BuilderSpec BuilderProofs BuilderAttrProofs BuilderExamples.

(** C22: the builder holds exactly the accepted registrations; in the specification a
    sub-domain whose id is taken or whose dimension does not fit is not accepted. *)
Theorem c22_registered {S K num} `{EqDecision S} `{Countable K} (key : S → K) (kernel : occ S num)
    (ord : nat → list N → list N) k h id s :
  let r := reg (brun key kernel ord k h) in
  let a := spec_run (dim_of kernel) h in
  (subDomains r !! id = Some s ↔ ∃ c, (id, (s, c)) ∈ sds a) ∧
  entry (networks r) id = ents_of id a.
Proof. exact (c22_holds_lemma key kernel ord k h id s). Qed.
Print Assumptions c22_registered.

(** C22: a call throws iff the specification does not accept it. *)
Theorem c22_outcomes {S K num} `{EqDecision S} `{Countable K} (key : S → K) (kernel : occ S num)
    (ord : nat → list N → list N) k h o ok :
  accepted (dim_of kernel) (spec_run (dim_of kernel) h) o = Some ok →
  (bstep key kernel ord k (brun key kernel ord k h) o).2 = if ok then Ok None else Throw RuntimeError.
Proof. exact (c22_outcome_lemma key kernel ord k h o ok). Qed.
Print Assumptions c22_outcomes.

(** C22: a rejected sub-domain changes nothing. *)
Theorem c22_rejected {S K num} `{EqDecision S} `{Countable K} (key : S → K) (kernel : occ S num)
    (ord : nat → list N → list N) k h conf s id :
  sd_ok (dim_of kernel) s id (spec_run (dim_of kernel) h) = false →
  bstep key kernel ord k (brun key kernel ord k h) (AddSubDomain conf s id) =
    (brun key kernel ord k h, Throw RuntimeError).
Proof. exact (c22_rejected_lemma key kernel ord k h conf s id). Qed.
Print Assumptions c22_rejected.

(** C22: the dimensions are consistent. *)
Theorem c22_dimensions {S K num} `{EqDecision S} `{Countable K} (key : S → K) (kernel : occ S num)
    (ord : nat → list N → list N) k h :
  let r := reg (brun key kernel ord k h) in
  (∀ i1 i2 s1 s2, subDomains r !! i1 = Some s1 → subDomains r !! i2 = Some s2 →
                  dim_of kernel s1 = dim_of kernel s2) ∧
  (∀ i1 i2 e1 e2, e1 ∈ entry (networks r) i1 → e2 ∈ entry (networks r) i2 →
                  dim_of kernel e1 = dim_of kernel e2) ∧
  (∀ i1 i2 s e, subDomains r !! i1 = Some s → e ∈ entry (networks r) i2 →
                (dim_of kernel e < dim_of kernel s)%Z).
Proof. exact (c22_consistent_lemma key kernel ord k h). Qed.
Print Assumptions c22_dimensions.

(** A history with three rejected calls: the id 1 is taken, 105 is no sub-domain, and 2 is
    no entity (101, which comes before it in the list, is added). *)
Example c22_case :
  let h := [AddSubDomain true 1 1; AddSubDomain false 3 1; AddSubDomain false 105 2;
            AddEntities [101; 2; 102] 1; AddSubDomain false 2 4]%N in
  spec_run (dim_of (toy [] fr0)) h = mkRd [(1, (1, true)); (4, (2, false))]%N [(1, 101)]%N ∧
  (λ n, (tstep [] fr0 Plain (trun [] fr0 Plain (take n h)) (nth n h Build)).2) <$> [0; 1; 2; 3; 4] =
    [Ok None; Throw RuntimeError; Throw RuntimeError; Throw RuntimeError; Ok None].
Proof. vm_compute. done. Qed.

(** C23: network() returns the network of the last build() if that succeeded and neither
    build() nor clear() was called since ... *)
Theorem c23_network {S K num} `{EqDecision S} `{Countable K} (key : S → K) (kernel : occ S num)
    (ord : nat → list N → list N) k h n :
  get_network (brun key kernel ord k h) = Ok n ↔
  ∃ h1 h2, h = h1 ++ Build :: h2 ∧ Forall (λ o, o ≠ Build ∧ o ≠ Clear) h2 ∧
           (bstep key kernel ord k (brun key kernel ord k h1) Build).2 = Ok (Some n).
Proof. exact (c23_lemma key kernel ord k h n). Qed.
Print Assumptions c23_network.

(** ... and throws in all other cases. *)
Theorem c23_throws {S K num} `{EqDecision S} `{Countable K} (key : S → K) (kernel : occ S num)
    (ord : nat → list N → list N) k h :
  (∃ n, get_network (brun key kernel ord k h) = Ok n) ∨
  get_network (brun key kernel ord k h) = Throw RuntimeError.
Proof. exact (c23_throws_lemma key kernel ord k h). Qed.
Print Assumptions c23_throws.

(** A second build that fails (out of range, see C26) leaves no network behind. *)
Example c23_case :
  let h := [AddEntities [101; 102] 0; Build; AddEntities [103] 2147483648]%N in
  (match get_network (trun [] fr0 Plain h) with Ok _ => true | _ => false end) = true ∧
  get_network (trun [] fr0 Plain (h ++ [Build])) = Throw RuntimeError ∧
  get_network (trun [] fr0 Plain (h ++ [Clear])) = Throw RuntimeError.
Proof. vm_compute. done. Qed.

(** C24, contained networks: the fragments of every sub-domain are exactly those that stem
    from its entities, and the index of each is the number of an entity from which it
    stems ([contained_ok]); C65: the sub-domains and their fragments are complete
    ([sub_domains_ok]).  Missing: ids from 2^31 on (see C26), and shapes that occur in more
    than one sub-domain (see the counterexample below). *)
Theorem c24_contained_partial {S K num} `{EqDecision S} `{Countable K} (key : S → K)
    (kernel : occ S num) (ord : nat → list N → list N) (Hord : ∀ i l, ord i l ≡ₚ l) h n :
  let a := spec_run (dim_of kernel) h in
  distinct key kernel a (union_flag h) →
  NoDup (key <$> ((λ p : N * (S * bool), p.2.1) <$> sds a)) →
  (bstep key kernel ord Contained (brun key kernel ord Contained h) Build).2 = Ok (Some n) →
  ∃ e hc hf, operations kernel a (union_flag h) true e hc hf ∧
             contained_ok key kernel a hc hf n ∧ sub_domains_ok a hf n.
Proof. exact (c24_contained_lemma key kernel ord Hord h n). Qed.
Print Assumptions c24_contained_partial.

(** C24: under the same premises the build succeeds, if the operations of the kernel do. *)
Theorem c24_build_succeeds {S K num} `{EqDecision S} `{Countable K} (key : S → K)
    (kernel : occ S num) (ord : nat → list N → list N) (Hord : ∀ i l, ord i l ≡ₚ l) k h :
  let a := spec_run (dim_of kernel) h in
  reliable kernel → distinct key kernel a (union_flag h) →
  NoDup (key <$> ((λ p : N * (S * bool), p.2.1) <$> sds a)) →
  ents a ≠ [] → (k = Contained → sds a ≠ []) →
  ∃ n, (bstep key kernel ord k (brun key kernel ord k h) Build).2 = Ok (Some n).
Proof. exact (c24_succeeds_lemma key kernel ord Hord k h). Qed.
Print Assumptions c24_build_succeeds.

(** Two sub-domains, one confining; 101 is confined to 111, 102 is outside; 111 and 201
    are cut, as is sub-domain 1. *)
Definition hist24c : list (bcall (S := N) (num := N)) :=
  [AddSubDomain true 1 5; AddSubDomain false 2 6; AddEntities [101; 102; 103] 5; AddEntities [201] 6]%N.
Definition cf24c : table := [(101, [111]); (102, [])]%N.
Definition fr24c : N → table := λ _, [(111, [121; 122]); (201, [211; 212]); (1, [11; 12])]%N.
Example c24_case :
  let a := spec_run (dim_of (toy cf24c fr24c)) hist24c in
  distinct id (toy cf24c fr24c) a (union_flag hist24c) ∧
  NoDup ((id : N → N) <$> ((λ p : N * (N * bool), p.2.1) <$> sds a)) ∧
  (match (tstep cf24c fr24c Contained (trun cf24c fr24c Contained hist24c) Build).2 with
   | Ok (Some (CNet 2 3 sdf frags index)) =>
       (sdf !! 5, sdf !! 6, frags !! 5, frags !! 6, map_to_list <$> index !! 5)
   | _ => (None, None, None, None, None)
   end)%N = (Some [11; 12], Some [2], Some [121; 122; 103], Some [211; 212],
             Some [(103, 3); (121, 1); (122, 1)])%N.
Proof.
  split; [apply toy_distinct; vm_compute; reflexivity|]. split; [|vm_compute; reflexivity].
  vm_compute. repeat constructor; set_solver.
Qed.

(** C24 does not hold if an entity is registered for two sub-domains: both registrations
    are accepted, but the list of one sub-domain holds the entity as it was before the
    fragmentation. *)
Theorem c24_shared_entity_refuted :
  ∃ (kernel : occ N N) (h : list bcall) (hf : report N) (s f : N),
    reliable kernel ∧ (∀ e args, fragment kernel e args = Some hf) ∧ piece hf s f ∧ f ≠ s ∧
    (∀ id, id = 1%N ∨ id = 2%N → s ∈ ents_of id (spec_run (dim_of kernel) h)) ∧
    union_flag h = false ∧
    ∃ ed dd sdf frags index,
      (bstep (K := N) id kernel in_order Contained (brun (K := N) id kernel in_order Contained h) Build).2 =
        Ok (Some (CNet ed dd sdf frags index)) ∧
      (frags !! 1%N = Some [s] ∨ frags !! 2%N = Some [s]).
Proof. exact c24_refuted_lemma. Qed.
Print Assumptions c24_shared_entity_refuted.

(** C25: two fragments have the same primary index iff they have the same owner, provided
    that every sub-domain has at least as many fragments as entities ([enough]). *)
Theorem c25_primary_index_partial {S K num} `{EqDecision S} `{Countable K} (key : S → K)
    (kernel : occ S num) (ord : nat → list N → list N) (Hord : ∀ i l, ord i l ≡ₚ l) h n :
  let a := spec_run (dim_of kernel) h in
  distinct key kernel a (union_flag h) →
  (bstep key kernel ord Plain (brun key kernel ord Plain h) Build).2 = Ok (Some n) →
  ∃ e hc hf, operations kernel a (union_flag h) false e hc hf ∧ plain_ok key kernel a hc hf n ∧
             (enough key a hc hf → owners_ok key a hc hf n).
Proof. exact (c25_plain_lemma key kernel ord Hord h n). Qed.
Print Assumptions c25_primary_index_partial.

Example c25_case :
  let a := spec_run (dim_of (toy [] fr24c)) hist24c in
  distinct id (toy [] fr24c) a (union_flag hist24c) ∧
  (match (tstep [] fr24c Plain (trun [] fr24c Plain hist24c) Build).2 with
   | Ok (Some (Net 2 frags index)) => (frags, map_to_list index)
   | _ => ([], [])
   end) = ([101; 102; 103; 211; 212], [(103, 3); (211, 4); (101, 1); (212, 4); (102, 2)])%N.
Proof.
  split; [apply toy_distinct; vm_compute; reflexivity|]. vm_compute. reflexivity.
Qed.

(** C25 does not hold if the confinement removes entities: here the entities 103 of
    sub-domain 1 and 202 of sub-domain 2 are unchanged, but have the same primary index. *)
Theorem c25_primary_index_refuted :
  ∃ (kernel : occ N N) (h : list bcall),
    reliable kernel ∧ distinct id kernel (spec_run (dim_of kernel) h) (union_flag h) ∧
    (1, 103)%N ∈ ents (spec_run (dim_of kernel) h) ∧ (2, 202)%N ∈ ents (spec_run (dim_of kernel) h) ∧
    ∃ ed frags index i,
      (bstep (K := N) id kernel in_order Plain (brun (K := N) id kernel in_order Plain h) Build).2 =
        Ok (Some (Net ed frags index)) ∧
      103%N ∈ frags ∧ 202%N ∈ frags ∧ index !! 103%N = Some i ∧ index !! 202%N = Some i.
Proof. exact c25_refuted_lemma. Qed.
Print Assumptions c25_primary_index_refuted.

(** C26: below 2^31 the ids are kept (the ids of the network are those registered, and
    entities are filed under their id). *)
Theorem c26_ids_partial {S K num} `{EqDecision S} `{Countable K} (key : S → K)
    (kernel : occ S num) (ord : nat → list N → list N) (Hord : ∀ i l, ord i l ≡ₚ l) h ed dd sdf frags index :
  let a := spec_run (dim_of kernel) h in
  distinct key kernel a (union_flag h) →
  NoDup (key <$> ((λ p : N * (S * bool), p.2.1) <$> sds a)) →
  (bstep key kernel ord Contained (brun key kernel ord Contained h) Build).2 =
    Ok (Some (CNet ed dd sdf frags index)) →
  (∀ id, id ∈ sub_domain_ids sdf ↔ id ∈ (sds a).*1) ∧
  (∀ id, ents_of id a ≠ [] → is_Some (frags !! id) ∧ is_Some (index !! id)).
Proof. exact (c26_ids_lemma key kernel ord Hord h ed dd sdf frags index). Qed.
Print Assumptions c26_ids_partial.

(** C26 does not hold for larger ids: the build throws std::out_of_range ... *)
Theorem c26_large_id_throws_refuted {S K num} `{EqDecision S} `{Countable K} (key : S → K)
    (kernel : occ S num) (ord : nat → list N → list N) (Hord : ∀ i l, ord i l ≡ₚ l) (s : S) id :
  reliable kernel → (2^31 ≤ id < 2^64 - 2^31)%N →
  (bstep key kernel ord Plain (brun key kernel ord Plain [AddEntities [s] id]) Build).2 = Throw OutOfRange.
Proof. exact (c26_large_lemma key kernel ord Hord s id). Qed.
Print Assumptions c26_large_id_throws_refuted.

(** ... or files a sub-domain under another id. *)
Theorem c26_aliased_id_refuted :
  ∃ (kernel : occ N N) (h : list bcall),
    reliable kernel ∧ (sds (spec_run (dim_of kernel) h)).*1 = [2^32 + 1; 7]%N ∧
    ∃ ed dd sdf frags index,
      (bstep (K := N) id kernel in_order Contained (brun (K := N) id kernel in_order Contained h) Build).2 =
        Ok (Some (CNet ed dd sdf frags index)) ∧
      sub_domain_ids sdf ≡ₚ [1; 7]%N.
Proof. exact c26_refuted_lemma. Qed.
Print Assumptions c26_aliased_id_refuted.

(** C27: a tolerance set by the user is used by all later builds (with two kernels that
    behave alike for this tolerance, the results are the same). *)
Theorem c27_explicit {S K num} `{EqDecision S} `{Countable K} (key : S → K) (kernel : occ S num)
    (ord : nat → list N → list N) k h1 h2 e kernel2 :
  forallb (λ o, negb (sets_tol o)) h2 = true → agree_at e kernel kernel2 →
  let b := brun key kernel ord k (h1 ++ SetEpsilon e :: h2) in
  (bstep key kernel ord k b Build).2 = (bstep key kernel2 ord k b Build).2.
Proof. exact (c27_explicit_lemma key kernel ord k h1 h2 e kernel2). Qed.
Print Assumptions c27_explicit.

(** C27: a first build uses the smallest default tolerance of the registered sub-domains,
    or of the entities if there are none: as if the user had set this value. *)
Theorem c27_first_build_partial {S K num} `{EqDecision S} `{Countable K} (key : S → K)
    (kernel : occ S num) (ord : nat → list N → list N) (Hord : ∀ i l, ord i l ≡ₚ l)
    (le : relation num) `{!TotalOrder le} k h :
  ordered_by le kernel → forallb (λ o, negb (sets_tol o || is_build o)) h = true →
  measured (spec_run (dim_of kernel) h) ≠ [] →
  ∃ e, least le e (eps_of kernel <$> measured (spec_run (dim_of kernel) h)) ∧
       ∀ kernel2, agree_at e kernel kernel2 →
       (bstep key kernel ord k (brun key kernel ord k h) Build).2 =
       (bstep key kernel2 ord k (brun key kernel ord k (h ++ [SetEpsilon e])) Build).2.
Proof. exact (c27_first_lemma key kernel ord Hord le k h). Qed.
Print Assumptions c27_first_build_partial.

(** C27: setDefaultEpsilon() is setEpsilon() with the smallest default tolerance of what is
    registered at the time of the call (or the precision of the kernel, if nothing is). *)
Theorem c27_set_default {S K num} `{EqDecision S} `{Countable K} (key : S → K)
    (kernel : occ S num) (ord : nat → list N → list N) (Hord : ∀ i l, ord i l ≡ₚ l)
    (le : relation num) `{!TotalOrder le} k h1 :
  ordered_by le kernel →
  ∃ e, match measured (spec_run (dim_of kernel) h1) with
       | [] => e = confusion kernel
       | l => least le e (eps_of kernel <$> l)
       end ∧
       ∀ h2, brun key kernel ord k (h1 ++ SetDefaultEpsilon :: h2) = brun key kernel ord k (h1 ++ SetEpsilon e :: h2).
Proof. exact (c27_set_default_lemma key kernel ord Hord le k h1). Qed.
Print Assumptions c27_set_default.

Example c27_case :
  let h := [AddEntities [300; 105; 200] 0; Clear; AddEntities [400; 130] 3]%N in
  forallb (λ o, negb (sets_tol o || is_build o)) h = true ∧
  measured (spec_run (dim_of (toy [] fr27)) h) = [400; 130]%N ∧
  (bstep (K := N) id (toy [] fr27) in_order Plain (trun [] fr27 Plain h) Build).2 =
  (bstep (K := N) id (toy [] fr27) in_order Plain (trun [] fr27 Plain (h ++ [SetEpsilon 130%N])) Build).2.
Proof. vm_compute. done. Qed.

(** C27 does not hold for later builds: after clear(), the default tolerance of the
    previous geometry is still used.  Both histories register the same. *)
Theorem c27_after_clear_refuted :
  ∃ (kernel : occ N N) (h h' : list bcall),
    ordered_by N.le kernel ∧
    forallb (λ o, negb (sets_tol o)) (h ++ h') = true ∧
    spec_run (dim_of kernel) h = spec_run (dim_of kernel) h' ∧
    (bstep (K := N) id kernel in_order Plain (brun (K := N) id kernel in_order Plain h) Build).2 ≠
    (bstep (K := N) id kernel in_order Plain (brun (K := N) id kernel in_order Plain h') Build).2.
Proof. exact c27_refuted_lemma. Qed.
Print Assumptions c27_after_clear_refuted.

(** C65 does not hold if the same shape is registered as two sub-domains: only one of
    them is listed in the network. *)
Theorem c65_same_sub_domain_refuted :
  ∃ (kernel : occ N N) (h : list bcall),
    reliable kernel ∧ (sds (spec_run (dim_of kernel) h)).*1 = [3; 4]%N ∧
    ∃ ed dd sdf frags index,
      (bstep (K := N) id kernel in_order Contained (brun (K := N) id kernel in_order Contained h) Build).2 =
        Ok (Some (CNet ed dd sdf frags index)) ∧
      length (sub_domain_ids sdf) = 1.
Proof. exact c65_refuted_lemma. Qed.
Print Assumptions c65_same_sub_domain_refuted.

(** C66 does not hold: a contained network with sub-domains, but without entities, is built
    with an indeterminate entity dimension. *)
Theorem c66_no_entities_refuted {S K num} `{EqDecision S} `{Countable K} (key : S → K)
    (kernel : occ S num) (ord : nat → list N → list N) (Hord : ∀ i l, ord i l ≡ₚ l) conf (s : S) id :
  reliable kernel → (id < 2^31)%N →
  (bstep key kernel ord Contained (brun key kernel ord Contained [AddSubDomain conf s id]) Build).2 = UB.
Proof. exact (c66_lemma key kernel ord Hord conf s id). Qed.
Print Assumptions c66_no_entities_refuted.

(** C66: with at least one entity and one sub-domain ever registered before (even if
    removed by clear()), or for plain networks with an entity, build() has defined
    behaviour. *)
Theorem c66_defined_partial {S K num} `{EqDecision S} `{Countable K} (key : S → K)
    (kernel : occ S num) (ord : nat → list N → list N) k h :
  ents (spec_run (dim_of kernel) h) ≠ [] →
  (k = Contained → sds (spec_run (dim_of kernel) h) ≠ []) →
  (bstep key kernel ord k (brun key kernel ord k h) Build).2 ≠ UB ∧
  (bstep key kernel ord k (brun key kernel ord k h) Build).2 ≠ Diverge.
Proof. exact (c66_defined_lemma key kernel ord k h). Qed.
Print Assumptions c66_defined_partial.
Example c66_defined_case :
  ents (spec_run (dim_of (toy cf24c fr24c)) hist24c) ≠ [] ∧ sds (spec_run (dim_of (toy cf24c fr24c)) hist24c) ≠ [].
Proof. vm_compute. split; discriminate. Qed.
