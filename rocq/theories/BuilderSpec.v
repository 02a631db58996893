(** Specification for C22-C27: what has been registered, which entity a fragment stems
    from, and which tolerance applies. *)

From stdpp Require Import prelude gmap list.
From Verif Require Import Base BuilderModel.

Section Reg.
Context {S num : Type} (dim : S → Z).

(** The accepted registrations since the last clear(), in the order of the calls. *)
Record registered := mkRd {
  sds : list (N * (S * bool));    (* sub-domain id, shape, confining? *)
  ents : list (N * S);            (* sub-domain id, entity *)
}.

Definition sd_ok (s : S) (id : N) (r : registered) : bool :=
  forallb (λ p : N * (S * bool), bool_decide (p.1 ≠ id ∧ dim p.2.1 = dim s)) (sds r) &&
  forallb (λ p : N * S, bool_decide (dim p.2 < dim s)%Z) (ents r).
Definition ent_ok (s : S) (r : registered) : bool :=
  forallb (λ p : N * S, bool_decide (dim p.2 = dim s)) (ents r) &&
  forallb (λ p : N * (S * bool), bool_decide (dim s < dim p.2.1)%Z) (sds r).

(** Of a list of entities those before the first unacceptable one are accepted. *)
Fixpoint accept (ss : list S) (id : N) (r : registered) : registered :=
  match ss with
  | [] => r
  | s :: ss => if ent_ok s r then accept ss id (mkRd (sds r) (ents r ++ [(id, s)])) else r
  end.
Fixpoint all_ok (ss : list S) (id : N) (r : registered) : bool :=
  match ss with
  | [] => true
  | s :: ss => ent_ok s r && all_ok ss id (mkRd (sds r) (ents r ++ [(id, s)]))
  end.

Definition spec_step (r : registered) (o : bcall (S := S) (num := num)) : registered :=
  match o with
  | AddSubDomain conf s id => if sd_ok s id r then mkRd (sds r ++ [(id, (s, conf))]) (ents r) else r
  | AddEntities ss id => accept ss id r
  | Clear => mkRd [] []
  | _ => r
  end.
Definition spec_run (h : list bcall) : registered := fold_left spec_step h (mkRd [] []).

(** Is the call accepted? (Only for the registration calls.) *)
Definition accepted (r : registered) (o : bcall (S := S) (num := num)) : option bool :=
  match o with
  | AddSubDomain _ s id => Some (sd_ok s id r)
  | AddEntities ss id => Some (all_ok ss id r)
  | Build => None
  | _ => Some true
  end.

(** The entities registered for one id. *)
Definition ents_of (id : N) (r : registered) : list S :=
  (λ p : N * S, p.2) <$> filter (λ p : N * S, p.1 = id) (ents r).
End Reg.
Arguments registered : clear implicits.
Arguments mkRd {S}.
Arguments sds {S}.
Arguments ents {S}.

Section Stems.
Context {S K : Type} (key : S → K).

(** [f] is one of the pieces into which an operation turned its argument [s]. *)
Definition piece (h : report S) (s f : S) : Prop :=
  f ∈ generated h s ∨ f ∈ modified h s ∨
  (f = s ∧ is_deleted h s = false ∧ generated h s = [] ∧ modified h s = []).

(** Confinement is optional: without it, an entity is its only piece. *)
Definition confined (h : option (report S)) (s g : S) : Prop :=
  match h with Some h => piece h s g | None => g = s end.

(** [f] stems from [s]: first confinement by [hc], then fragmentation by [h]. *)
Definition stems (hc : option (report S)) (h : report S) (s f : S) : Prop :=
  ∃ g, confined hc s g ∧ piece h g f.

(** The same, shapes being identified if they differ in the orientation only. *)
Definition same (s t : S) : Prop := key s = key t.
Definition stems_same (hc : option (report S)) (h : report S) (s f : S) : Prop :=
  ∃ s' g g' f', same s s' ∧ confined hc s' g ∧ same g g' ∧ piece h g' f' ∧ same f' f.
End Stems.

(** Two kernels that cannot be told apart with the tolerance [e]. *)
Definition agree_at {S num} (e : num) (k1 k2 : occ S num) : Prop :=
  dim_of k1 = dim_of k2 ∧ common k1 e = common k2 e ∧ fragment k1 e = fragment k2 e ∧ fuse k1 e = fuse k2 e.

(** [e] is the smallest of the values in [l]. *)
Definition least {num} (le : relation num) (e : num) (l : list num) : Prop :=
  e ∈ l ∧ ∀ x, x ∈ l → le e x.

(** The shapes that determine the default tolerance: the sub-domains, or the entities if
    there are no sub-domains. *)
Definition measured {S} (r : registered S) : list S :=
  match sds r with
  | [] => (λ p : N * S, p.2) <$> ents r
  | l => (λ p : N * (S * bool), p.2.1) <$> l
  end.

(** The tolerances are linearly ordered by [le], std::min is the minimum, and the default
    tolerance of a shape is not larger than the largest double. *)
Definition ordered_by {S num} (le : relation num) (k : occ S num) : Prop :=
  (∀ x y, (le x y ∧ minimum k x y = x) ∨ (le y x ∧ minimum k x y = y)) ∧
  ∀ s, le (eps_of k s) (huge k).

(** Calls that determine the tolerance: setEpsilon, setDefaultEpsilon, and build, which
    computes the default value if there is none. *)
Definition sets_tol {S num} (o : bcall (S := S) (num := num)) : bool :=
  match o with SetEpsilon _ | SetDefaultEpsilon => true | _ => false end.
Definition is_build {S num} (o : bcall (S := S) (num := num)) : bool :=
  match o with Build => true | _ => false end.

(** [u] is the union of the sub-domains, as computed by the kernel. *)
Definition is_union {S num} (k : occ S num) (e : num) (a : registered S) (u : S) : Prop :=
  ∃ l, l ≡ₚ ((λ p : N * (S * bool), p.2.1) <$> sds a) ∧
       match l with [] => False | [s] => u = s | _ => fuse k e l = Some u end.

(** The confinement of the entities of [id]: by the sub-domain if it is confining, else by
    the union of all sub-domains unless this is switched off ([cu]).  Entities of an id
    without sub-domain are not confined. *)
Definition conf_by {S num} (k : occ S num) (e : num) (a : registered S) (cu : bool) (id : N)
    (hc : option (report S)) : Prop :=
  (∀ s, (id, (s, true)) ∈ sds a → ∃ h, hc = Some h ∧ common k e (ents_of id a) [s] = Some h) ∧
  (∀ s, (id, (s, false)) ∈ sds a → cu = true →
        ∃ h u, hc = Some h ∧ is_union k e a u ∧ common k e (ents_of id a) [u] = Some h) ∧
  (∀ s, (id, (s, false)) ∈ sds a → cu = false → hc = None) ∧
  (id ∉ (sds a).*1 → hc = None).

(** The setting of setConfineToSubDomainUnion. *)
Definition union_flag {S num} (h : list (bcall (S := S) (num := num))) : bool :=
  fold_left (λ v o, match o with SetConfineUnion v' => v' | _ => v end) h true.

(** All ids that occur. *)
Definition all_ids {S} (a : registered S) : list N := (sds a).*1 ++ (ents a).*1.

(** Entities of different sub-domains have no piece in common (before fragmentation). *)
Definition separate {S K} (key : S → K) (a : registered S) (hc : N → option (report S)) : Prop :=
  ∀ id1 id2 s1 s2 g1 g2,
    s1 ∈ ents_of id1 a → s2 ∈ ents_of id2 a →
    confined (hc id1) s1 g1 → confined (hc id2) s2 g2 → same key g1 g2 → id1 = id2.

(** The entities of one sub-domain are filed correctly in a list of fragments and an index
    map: the list consists of what stems from the entities, the map holds exactly the
    fragments of the list, and the index of a fragment is the number (counted from 1) of
    an entity from which it stems. *)
Definition filed_ok {S K} `{Countable K} (key : S → K) (hc : option (report S)) (hf : report S)
    (es : list S) (frags : list S) (index : gmap K N) : Prop :=
  (∀ f, f ∈ frags ↔ ∃ s, s ∈ es ∧ stems hc hf s f) ∧
  (∀ κ, is_Some (index !! κ) ↔ ∃ f, f ∈ frags ∧ key f = κ) ∧
  (∀ f i, index !! key f = Some i →
          ∃ n s, es !! n = Some s ∧ i = (N.of_nat n + 1)%N ∧ stems_same key hc hf s f).

(** No operation of the kernel fails. *)
Definition reliable {S num} (k : occ S num) : Prop :=
  (∀ e l t, common k e l t ≠ None) ∧ (∀ e l, fragment k e l ≠ None) ∧ (∀ e l, fuse k e l ≠ None).

(** What a build has to deliver.  [e]: tolerance, [hc]: confinement per id, [hf]: result of
    the fragmentation of all pieces (and of the sub-domains, if [sd]). *)
Section Results.
Context {S K num : Type} `{Countable K} (key : S → K) (kernel : occ S num).

Definition operations (a : registered S) (cu sd : bool) (e : num)
    (hc : N → option (report S)) (hf : report S) : Prop :=
  (∀ id, ents_of id a ≠ [] → conf_by kernel e a cu id (hc id)) ∧
  ∃ args, fragment kernel e args = Some hf ∧
    ∀ g, g ∈ args ↔ (∃ id s, s ∈ ents_of id a ∧ confined (hc id) s g) ∨
                    (sd = true ∧ g ∈ (λ p : N * (S * bool), p.2.1) <$> sds a).

(** Entities and fragments of a contained network. *)
Definition contained_ok (a : registered S) (hc : N → option (report S)) (hf : report S)
    (n : network S K) : Prop :=
  match n with
  | CNet ed dd sdf frags index =>
      (∀ id s, (id, s) ∈ ents a → dim_of kernel s = ed) ∧
      (∀ id s c, (id, (s, c)) ∈ sds a → dim_of kernel s = dd) ∧
      (∀ id, ents_of id a ≠ [] → ∃ l m, frags !! id = Some l ∧ index !! id = Some m ∧
                                        filed_ok key (hc id) hf (ents_of id a) l m) ∧
      (∀ id, id ∈ (sds a).*1 → ents_of id a = [] → frags !! id = Some [] ∧ index !! id = Some ∅)
  | Net _ _ _ => False
  end.

(** Sub-domains and their fragments. *)
Definition sub_domains_ok (a : registered S) (hf : report S) (n : network S K) : Prop :=
  match n with
  | CNet _ _ sdf _ _ =>
      (∀ id, id ∈ sub_domain_ids sdf ↔ id ∈ (sds a).*1) ∧
      (∀ id s c, (id, (s, c)) ∈ sds a → ∃ l, at_id sdf id = Ok l ∧ ∀ f, f ∈ l ↔ piece hf s f)
  | Net _ _ _ => False
  end.

(** A network without sub-domains: the list holds the fragments of all entities. *)
Definition plain_ok (a : registered S) (hc : N → option (report S)) (hf : report S)
    (n : network S K) : Prop :=
  match n with
  | Net ed frags index =>
      (∀ id s, (id, s) ∈ ents a → dim_of kernel s = ed) ∧
      (∀ f, f ∈ frags ↔ ∃ id s, s ∈ ents_of id a ∧ stems (hc id) hf s f) ∧
      (∀ κ, is_Some (index !! κ) ↔ ∃ f, f ∈ frags ∧ key f = κ)
  | CNet _ _ _ _ _ => False
  end.

(** Every sub-domain has at least as many (different) fragments as entities. *)
Definition enough (a : registered S) (hc : N → option (report S)) (hf : report S) : Prop :=
  ∀ id, ∃ ks : list K, NoDup ks ∧ length ks = length (ents_of id a) ∧
        ∀ κ, κ ∈ ks → ∃ s f, s ∈ ents_of id a ∧ stems (hc id) hf s f ∧ key f = κ.

(** Each fragment has an owner, given by its sub-domain id and its position in the list of
    entities of that sub-domain, from which it stems; two fragments have the same primary
    index iff they have the same owner. *)
Definition owners_ok (a : registered S) (hc : N → option (report S)) (hf : report S)
    (n : network S K) : Prop :=
  match n with
  | Net _ frags index =>
      ∃ own : S → N * nat,
        (∀ f, f ∈ frags → ∃ s, ents_of (own f).1 a !! (own f).2 = Some s ∧
                               stems_same key (hc (own f).1) hf s f) ∧
        (∀ f1 f2, f1 ∈ frags → f2 ∈ frags →
                  (index !! key f1 = index !! key f2 ↔ own f1 = own f2))
  | CNet _ _ _ _ _ => False
  end.
End Results.

(** The premises of C24 and C25: ids fit into an int, and entities of different
    sub-domains have no piece in common. *)
Definition distinct {S K num} (key : S → K) (kernel : occ S num) (a : registered S) (cu : bool) : Prop :=
  Forall (λ id, id < 2^31)%N (all_ids a) ∧
  (∀ e hc, (∀ id, ents_of id a ≠ [] → conf_by kernel e a cu id (hc id)) → separate key a hc).
