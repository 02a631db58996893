(** Model of the entity network builders,
    /repo/frackit/entitynetwork/networkbuilder.hh, and of the networks they return
    (entitynetwork.hh:46-83, containedentitynetwork.hh:49-110).

    The geometry kernel (OpenCascade) is a parameter, the record [occ]: which fragments a
    Boolean operation produces, and whether it succeeds, is left open.  Also left open is
    the order in which the loops run through the std::unordered_map's: the parameter [ord]
    gives, per loop, the sequence in which the ids are visited. *)

From stdpp Require Import prelude gmap list.
From Verif Require Import Base StatusModel.

(** The std::size_t that is obtained when an id is stored in a
    TopTools_DataMapOfShapeInteger (int) and read back as key of an
    std::unordered_map<std::size_t, ...>: networkbuilder.hh:301/338-344, 315/381-387. *)
Definition through_int (id : N) : N := size_of_int (int_of_size id).

(** What a Boolean operation reports on its arguments:
    IsDeleted, Generated, Modified of BRepBuilderAPI_MakeShape. *)
Record report (S : Type) := mkReport {
  is_deleted : S → bool;
  generated : S → list S;
  modified : S → list S;
}.
Arguments mkReport {S}.
Arguments is_deleted {S}.
Arguments generated {S}.
Arguments modified {S}.

(** The kernel.  [None]: IsDone() is false afterwards. *)
Record occ (S num : Type) := mkOcc {
  dim_of : S → Z;                                    (* getDimension *)
  common : num → list S → list S → option (report S); (* BRepAlgoAPI_Common *)
  fragment : num → list S → option (report S);       (* BRepAlgoAPI_BuilderAlgo *)
  fuse : num → list S → option S;                    (* OCCUtilities::fuse *)
  eps_of : S → num;                                  (* defaultEpsilon of a shape *)
  confusion : num;                                   (* Precision::confusion() *)
  huge : num;                                        (* numeric_limits::max() *)
  minimum : num → num → num;                         (* std::min *)
}.
Arguments mkOcc {S num}.
Arguments dim_of {S num}.
Arguments common {S num}.
Arguments fragment {S num}.
Arguments fuse {S num}.
Arguments eps_of {S num}.
Arguments confusion {S num}.
Arguments huge {S num}.
Arguments minimum {S num}.

(** The two kinds of networks: entitynetwork.hh:60-83 (dimension, fragment list, index
    map) and containedentitynetwork.hh:63-109 (dimensions; per sub-domain id the fragments
    of the sub-domain, the fragments of the entities and the index map). *)
Inductive network (S K : Type) `{Countable K} :=
| Net (edim : Z) (frags : list S) (index : gmap K N)
| CNet (edim ddim : Z) (sdfrags frags : gmap N (list S)) (index : gmap N (gmap K N)).
Arguments Net {S K _ _}.
Arguments CNet {S K _ _}.

(** containedentitynetwork.hh:73-75: subDomainIds() lists the keys of the sub-domain
    fragments. *)
Definition sub_domain_ids {S} (sdfrags : gmap N (list S)) : list N := (map_to_list sdfrags).*1.
(** containedentitynetwork.hh:88-103: .at() throws for other ids. *)
Definition at_id {V} (m : gmap N V) (id : N) : outcome V :=
  match m !! id with Some v => Ok v | None => Throw OutOfRange end.

(** The registered data, networkbuilder.hh:492-498 and 511 (confineToSubDomainUnion_).  The
    dimensions are plain ints without initialiser: [None] means indeterminate. *)
Record registry (S : Type) := mkReg {
  subDomains : gmap N S;
  bounds : gmap N bool;
  networks : gmap N (list S);
  domainDim : option Z;
  entityDim : option Z;
  confineUnion : bool;
}.
Arguments mkReg {S}.
Arguments subDomains {S}.
Arguments bounds {S}.
Arguments networks {S}.
Arguments domainDim {S}.
Arguments entityDim {S}.
Arguments confineUnion {S}.

(** The data written during a build, networkbuilder.hh:501, 504-508 (eps_ if
    epsilonIsSet_), 513-519. *)
Record scratch (S K num : Type) `{Countable K} := mkScr {
  tol : option num;
  union : option S;
  sdFrag : gmap N (list S);
  nfl : gmap N (list S);
  nfm : gmap N (gmap K N);
}.
Arguments mkScr {S K num _ _}.
Arguments tol {S K num _ _}.
Arguments union {S K num _ _}.
Arguments sdFrag {S K num _ _}.
Arguments nfl {S K num _ _}.
Arguments nfm {S K num _ _}.

(** A builder: registered data, build data, built_, network_ of the derived class. *)
Record builder (S K num : Type) `{Countable K} := mkB {
  reg : registry S;
  scr : scratch S K num;
  built : bool;
  net : option (network S K);
}.
Arguments mkB {S K num _ _}.
Arguments reg {S K num _ _}.
Arguments scr {S K num _ _}.
Arguments built {S K num _ _}.
Arguments net {S K num _ _}.

(** EntityNetworkBuilder or ContainedEntityNetworkBuilder. *)
Inductive kind := Plain | Contained.

Section Builder.
(** Shapes have two equalities: Leibniz equality stands for IsEqual (used by
    TopTools_ListOfShape::Contains), equality of keys for IsSame (used by the maps of
    shapes).  (With OpenCascade IsEqual implies IsSame.) *)
Context {S K num : Type} `{EqDecision S} `{Countable K} (key : S → K).
Variable kernel : occ S num.
Variable ord : nat → list N → list N.

Notation registry := (registry S).
Notation scratch := (scratch S K num).
Notation builder := (builder S K num).
Notation network := (network S K).

(** networkbuilder.hh:492-519: the initial values. *)
Definition reg_init : registry := mkReg ∅ ∅ ∅ None None true.
Definition b_init : builder := mkB reg_init (mkScr None None ∅ ∅ ∅) false None.

(** Loop number [i] over a hash map: its ids, in the order of [ord i]. *)
Definition ids_in {V} (i : nat) (m : gmap N V) : list N := ord i (map_to_list m).*1.
Definition entry {V} (m : gmap N (list V)) (id : N) : list V := default [] (m !! id).

(** A comparison of an int with an indeterminate one is undefined behaviour. *)
Definition with_dim (d : option Z) (k : Z → outcome unit) : outcome unit :=
  match d with Some z => k z | None => UB end.

(** addSubDomain, networkbuilder.hh:134-147, and addConfiningSubDomain, 160-164. *)
Definition add_sub_domain (confining : bool) (s : S) (id : N) (r : registry) : outcome registry :=
  let d := dim_of kernel s in
  obind (if bool_decide (networks r ≠ ∅)
         then with_dim (entityDim r) (λ e, if bool_decide (d ≤ e)%Z then Throw RuntimeError else Ok tt)
         else Ok tt) (λ _,
  obind (if bool_decide (subDomains r ≠ ∅)
         then with_dim (domainDim r) (λ e, if bool_decide (d ≠ e) then Throw RuntimeError else Ok tt)
         else Ok tt) (λ _,
  match subDomains r !! id with
  | Some _ => Throw RuntimeError
  | None => Ok (mkReg (<[id := s]> (subDomains r)) (<[id := confining]> (bounds r))
                      (networks r) (Some d) (entityDim r) (confineUnion r))
  end)).

(** addSubDomainEntity, networkbuilder.hh:173-183; addEntity, 542-552, is the same code
    with id 0. *)
Definition add_entity (s : S) (id : N) (r : registry) : outcome registry :=
  let d := dim_of kernel s in
  obind (if bool_decide (networks r ≠ ∅)
         then with_dim (entityDim r) (λ e, if bool_decide (d ≠ e) then Throw RuntimeError else Ok tt)
         else Ok tt) (λ _,
  obind (if bool_decide (subDomains r ≠ ∅)
         then with_dim (domainDim r) (λ e, if bool_decide (e ≤ d)%Z then Throw RuntimeError else Ok tt)
         else Ok tt) (λ _,
  Ok (mkReg (subDomains r) (bounds r) (<[id := entry (networks r) id ++ [s]]> (networks r))
            (domainDim r) (Some d) (confineUnion r)))).

(** addSubDomainEntities / addEntities, networkbuilder.hh:192-196, 558-562: the entities
    before a rejected one stay in the network. *)
Fixpoint add_entities (ss : list S) (id : N) (r : registry) : registry * outcome unit :=
  match ss with
  | [] => (r, Ok tt)
  | s :: ss => match add_entity s id r with
               | Ok r' => add_entities ss id r'
               | Throw e => (r, Throw e)
               | UB => (r, UB)
               | Diverge => (r, Diverge)
               end
  end.

(** setDefaultEpsilon, networkbuilder.hh:94-115 (the minima over doubles; the order of the
    loops is that of [ord]). *)
Definition default_tol (r : registry) : num :=
  if bool_decide (subDomains r = ∅ ∧ networks r = ∅) then confusion kernel
  else if bool_decide (subDomains r ≠ ∅)
       then fold_left (λ e id, match subDomains r !! id with
                               | Some s => minimum kernel e (eps_of kernel s)
                               | None => e
                               end) (ids_in 0 (subDomains r)) (huge kernel)
       else fold_left (λ e id, fold_left (λ e s, minimum kernel e (eps_of kernel s)) (entry (networks r) id) e)
                      (ids_in 1 (networks r)) (huge kernel).

(** getEpsilon_, networkbuilder.hh:406-411: the value is kept. *)
Definition get_eps (r : registry) (c : scratch) : num * scratch :=
  match tol c with
  | Some e => (e, c)
  | None => let e := default_tol r in (e, mkScr (Some e) (union c) (sdFrag c) (nfl c) (nfm c))
  end.

(** getSubDomainUnion_, networkbuilder.hh:416-437. *)
Definition get_union (r : registry) (c : scratch) : outcome S * scratch :=
  match union c with
  | Some u => (Ok u, c)
  | None =>
      let sds := omap (λ id, subDomains r !! id) (ids_in 2 (subDomains r)) in
      match sds with
      | [] => (Throw RuntimeError, c)
      | [s] => (Ok s, mkScr (tol c) (Some s) (sdFrag c) (nfl c) (nfm c))
      | _ =>
          let '(e, c) := get_eps r c in
          match fuse kernel e sds with
          | None => (Throw RuntimeError, c)
          | Some u => (Ok u, mkScr (tol c) (Some u) (sdFrag c) (nfl c) (nfm c))
          end
      end
  end.

(** initializeBuild_, networkbuilder.hh:442-468, with clearBuild_, 482-489, before it.  The
    entities get the indices 1, 2, ...; Bind overwrites, so that an entity that was added
    twice gets its last index.  (The indices are ints in the code; a list of 2^31 shapes is
    not considered.) *)
Fixpoint number (i : N) (ss : list S) (m : gmap K N) : gmap K N :=
  match ss with
  | [] => m
  | s :: ss => number (i + 1) ss (<[key s := i]> m)
  end.
Definition initial (r : registry) (e : option num) : scratch :=
  mkScr e None ∅
        (networks r ∪ ((λ _, []) <$> subDomains r))
        ((λ ss, number 1 ss ∅) <$> (networks r ∪ ((λ _, []) <$> subDomains r))).

(** The loop body that files the fragments of one entity, networkbuilder.hh:256-275 and
    349-370: [s] is the entity, [i] its index, [l] and [m] newList and the new index map. *)
Definition put (i : N) (f : S) (lm : list S * gmap K N) : list S * gmap K N :=
  let '(l, m) := lm in
  (if bool_decide (f ∈ l) then l else l ++ [f],
   match m !! key f with Some _ => m | None => <[key f := i]> m end).
Definition file (h : report S) (s : S) (i : N) (lm : list S * gmap K N) : list S * gmap K N :=
  let lm := if negb (is_deleted h s) && bool_decide (generated h s = [])
                                     && bool_decide (modified h s = [])
            then (lm.1 ++ [s], <[key s := i]> (lm.2)) else lm in
  fold_left (λ lm f, put i f lm) (generated h s ++ modified h s) lm.

(** Lines 247-276: all entities of a network. *)
Fixpoint file_all (h : report S) (idx : gmap K N) (ss : list S) (lm : list S * gmap K N)
  : outcome (list S * gmap K N) :=
  match ss with
  | [] => Ok lm
  | s :: ss => match idx !! key s with
               | None => Throw RuntimeError
               | Some i => file_all h idx ss (file h s i lm)
               end
  end.

(** confineNetworks_, networkbuilder.hh:215-281: body of the loop for sub-domain [id]. *)
Definition confine_one (r : registry) (id : N) (c : scratch) : outcome unit * scratch :=
  let nw := entry (networks r) id in
  match subDomains r !! id with
  | None => (Ok tt, c)
  | Some sd =>
      let go (tool : S) (c : scratch) :=
        let '(e, c) := get_eps r c in
        match common kernel e nw [tool] with
        | None => (Throw RuntimeError, c)
        | Some h =>
            match file_all h (default ∅ (nfm c !! id)) nw ([], ∅) with
            | Ok (l, m) => (Ok tt, mkScr (tol c) (union c) (sdFrag c) (<[id := l]> (nfl c)) (<[id := m]> (nfm c)))
            | Throw x => (Throw x, c)
            | UB => (UB, c)
            | Diverge => (Diverge, c)
            end
        end in
      match bounds r !! id with
      | None => (Throw OutOfRange, c)
      | Some true => go sd c
      | Some false =>
          if confineUnion r then
            match get_union r c with
            | (Ok u, c) => go u c
            | (Throw x, c) => (Throw x, c)
            | (UB, c) => (UB, c)
            | (Diverge, c) => (Diverge, c)
            end
          else (Ok tt, c)
      end
  end.
Fixpoint confine_loop (r : registry) (ids : list N) (c : scratch) : outcome unit * scratch :=
  match ids with
  | [] => (Ok tt, c)
  | id :: ids => match confine_one r id c with
                 | (Ok _, c) => confine_loop r ids c
                 | (Throw x, c) => (Throw x, c)
                 | (UB, c) => (UB, c)
                 | (Diverge, c) => (Diverge, c)
                 end
  end.
Definition confine (r : registry) (c : scratch) : outcome unit * scratch :=
  confine_loop r (ids_in 3 (networks r)) c.

(** fragment_, networkbuilder.hh:290-401. *)
(** Lines 293-302: the entities with the ids under which they are listed; the map of
    entities to ids (int), where the last Bind wins. *)
Definition tagged (ids : list N) (lists : gmap N (list S)) : list (S * N) :=
  ids ≫= (λ id, (λ s, (s, id)) <$> entry lists id).
Definition bind_ids (t : list (S * N)) : gmap K Z :=
  fold_left (λ m (p : S * N), <[key p.1 := int_of_size p.2]> m) t ∅.

(** Lines 333-371 *)
Fixpoint refile (h : report S) (ids : gmap K Z) (maps : gmap N (gmap K N)) (ss : list S)
    (acc : gmap N (list S * gmap K N)) : outcome (gmap N (list S * gmap K N)) :=
  match ss with
  | [] => Ok acc
  | s :: ss =>
      match ids !! key s with
      | None => Throw RuntimeError
      | Some z =>
          let id := size_of_int z in
          match maps !! id with
          | None => Throw OutOfRange
          | Some idx =>
              match idx !! key s with
              | None => Throw RuntimeError
              | Some i => refile h ids maps ss
                            (<[id := file h s i (default ([], ∅) (acc !! id))]> acc)
              end
          end
      end
  end.

(** Lines 378-400: the fragments of the sub-domains. *)
Definition sd_put (f : S) (l : list S) : list S := if bool_decide (f ∈ l) then l else l ++ [f].
Definition sd_file (h : report S) (s : S) (l : list S) : list S :=
  let l := if negb (is_deleted h s) && bool_decide (generated h s = [])
                                    && bool_decide (modified h s = []) then l ++ [s] else l in
  fold_left (λ l f, sd_put f l) (generated h s ++ modified h s) l.
Fixpoint sd_refile (h : report S) (ids : gmap K Z) (ss : list S) (acc : gmap N (list S))
  : outcome (gmap N (list S)) :=
  match ss with
  | [] => Ok acc
  | s :: ss =>
      match ids !! key s with
      | None => Throw RuntimeError
      | Some z => let id := size_of_int z in
                  sd_refile h ids ss (<[id := sd_file h s (entry acc id)]> acc)
      end
  end.

Definition fragment_all (network_only : bool) (r : registry) (c : scratch) : outcome unit * scratch :=
  let ents := tagged (ids_in 4 (nfl c)) (nfl c) in
  let doms := if network_only then []
              else tagged (ids_in 5 (subDomains r)) ((λ s, [s]) <$> subDomains r) in
  let '(e, c) := get_eps r c in
  match fragment kernel e (ents.*1 ++ doms.*1) with
  | None => (Throw RuntimeError, c)
  | Some h =>
      match refile h (bind_ids ents) (nfm c) ents.*1 ∅ with
      | Ok acc =>
          let c := mkScr (tol c) (union c) (sdFrag c)
                         ((fst <$> acc) ∪ nfl c) ((snd <$> acc) ∪ nfm c) in
          match sd_refile h (bind_ids doms) doms.*1 (sdFrag c) with
          | Ok sdf => (Ok tt, mkScr (tol c) (union c) sdf (nfl c) (nfm c))
          | Throw x => (Throw x, c)
          | UB => (UB, c)
          | Diverge => (Diverge, c)
          end
      | Throw x => (Throw x, c)
      | UB => (UB, c)
      | Diverge => (Diverge, c)
      end
  end.

(** EntityNetworkBuilder::build, networkbuilder.hh:579-593: the merged list and index
    map.  Extent is the number of bound fragments. *)
Definition merge_lists (c : scratch) : list S := ids_in 6 (nfl c) ≫= entry (nfl c).
Fixpoint merge_maps (ids : list N) (maps : gmap N (gmap K N)) (offset : N) (m : gmap K N) : gmap K N :=
  match ids with
  | [] => m
  | id :: ids =>
      let idx := default ∅ (maps !! id) in
      merge_maps ids maps (offset + N.of_nat (size idx)) ((N.add offset <$> idx) ∪ m)
  end.

(** build() of the two builders, networkbuilder.hh:567-604 and 637-668.  The networks get
    the dimensions by value: an indeterminate one is undefined behaviour.  (The warning on
    networks without sub-domain, 640-644, is left out.) *)
Definition build (k : kind) (b : builder) : builder * outcome network :=
  let r := reg b in
  let c := initial r (tol (scr b)) in
  let failed (c : scratch) (o : outcome network) := (mkB r c false (net b), o) in
  match confine r c with
  | (Ok _, c) =>
      match fragment_all (match k with Plain => true | Contained => false end) r c with
      | (Ok _, c) =>
          match k, entityDim r, domainDim r with
          | Plain, Some ed, _ =>
              let n := Net ed (merge_lists c) (merge_maps (ids_in 7 (nfm c)) (nfm c) 0 ∅) in
              (mkB r c true (Some n), Ok n)
          | Contained, Some ed, Some dd =>
              let n := CNet ed dd (sdFrag c) (nfl c) (nfm c) in
              (mkB r c true (Some n), Ok n)
          | _, _, _ => failed c UB
          end
      | (Throw x, c) => failed c (Throw x)
      | (UB, c) => failed c UB
      | (Diverge, c) => failed c Diverge
      end
  | (Throw x, c) => failed c (Throw x)
  | (UB, c) => failed c UB
  | (Diverge, c) => failed c Diverge
  end.

(** network(), networkbuilder.hh:609-614, 672-677: dereferences network_. *)
Definition get_network (b : builder) : outcome network :=
  if built b then match net b with Some n => Ok n | None => UB end else Throw RuntimeError.

(** The calls a user can make. *)
Inductive bcall :=
| AddSubDomain (confining : bool) (s : S) (id : N)  (* addSubDomain, addConfiningSubDomain *)
| AddEntities (ss : list S) (id : N)   (* addSubDomainEntities, addSubDomainEntity, addEntity *)
| SetConfineUnion (v : bool)           (* setConfineToSubDomainUnion, 74-77 *)
| SetEpsilon (e : num)                 (* setEpsilon, 84-88 *)
| SetDefaultEpsilon                    (* 94-115 *)
| Build
| Clear.                               (* clear, 201-207 *)

Definition set_tol (e : num) (b : builder) : builder :=
  let c := scr b in
  mkB (reg b) (mkScr (Some e) (union c) (sdFrag c) (nfl c) (nfm c)) (built b) (net b).

Definition bstep (k : kind) (b : builder) (o : bcall) : builder * outcome (option network) :=
  let r := reg b in
  match o with
  | AddSubDomain conf s id =>
      match add_sub_domain conf s id r with
      | Ok r' => (mkB r' (scr b) (built b) (net b), Ok None)
      | Throw x => (b, Throw x)
      | UB => (b, UB)
      | Diverge => (b, Diverge)
      end
  | AddEntities ss id =>
      let '(r', x) := add_entities ss id r in
      (mkB r' (scr b) (built b) (net b), omapo (λ _, None) x)
  | SetConfineUnion v =>
      (mkB (mkReg (subDomains r) (bounds r) (networks r) (domainDim r) (entityDim r) v)
           (scr b) (built b) (net b), Ok None)
  | SetEpsilon e => (set_tol e b, Ok None)
  | SetDefaultEpsilon => (set_tol (default_tol r) b, Ok None)
  | Build => let '(b', n) := build k b in (b', omapo Some n)
  | Clear =>
      (mkB (mkReg ∅ ∅ ∅ (domainDim r) (entityDim r) (confineUnion r))
           (mkScr (tol (scr b)) None ∅ ∅ ∅) false (net b), Ok None)
  end.
Definition brun (k : kind) (h : list bcall) : builder := fold_left (λ b o, (bstep k b o).1) h b_init.
End Builder.

Arguments AddSubDomain {S num}.
Arguments AddEntities {S num}.
Arguments SetConfineUnion {S num}.
Arguments SetEpsilon {S num}.
Arguments SetDefaultEpsilon {S num}.
Arguments Build {S num}.
Arguments Clear {S num}.
