(** Circles, ellipses, arcs, disks, cylinders and spheres in three-dimensional space. *)

From Coq Require Import ZArith List Bool.
From Verif Require Import Base NumModel VecModel LinModel.
Local Open Scope num_scope.

(** ellipticalgeometry.hh:124-133: the data of Circle, Ellipse and Disk *)
Record ell (A : Type) := mkEll
  { e_c : V3 A; e_maj : V3 A; e_min : V3 A; e_n : V3 A; e_a : A; e_b : A }.
Arguments mkEll {A} _ _ _ _ _ _.
Arguments e_c {A} _.
Arguments e_maj {A} _.
Arguments e_min {A} _.
Arguments e_n {A} _.
Arguments e_a {A} _.
Arguments e_b {A} _.

(** ellipsearc.hh:168-174 *)
Record arc (A : Type) := mkArc
  { a_ell : ell A; a_src : V3 A; a_tgt : V3 A; a_s : A; a_t : A; a_full : bool }.
Arguments mkArc {A} _ _ _ _ _ _.
Arguments a_ell {A} _.
Arguments a_src {A} _.
Arguments a_tgt {A} _.
Arguments a_s {A} _.
Arguments a_t {A} _.
Arguments a_full {A} _.

(** cylinder.hh:199-203 (top and bottom are disks), cylindersurface.hh:190-194 (circles) *)
Record cyl (A : Type) := mkCyl { c_h : A; c_top : ell A; c_bot : ell A }.
Arguments mkCyl {A} _ _ _.
Arguments c_h {A} _.
Arguments c_top {A} _.
Arguments c_bot {A} _.

(** hollowcylinder.hh:217-229.  The outer circles and the lateral faces are members that are
    computed at the first access; here they are functions of the other members. *)
Record hollow (A : Type) := mkHollow
  { h_bot : ell A; h_top : ell A; h_outer : A; h_h : A }.
Arguments mkHollow {A} _ _ _ _.
Arguments h_bot {A} _.
Arguments h_top {A} _.
Arguments h_outer {A} _.
Arguments h_h {A} _.

(** sphere.hh:98-99 *)
Record sphere (A : Type) := mkSphere { sp_c : V3 A; sp_r : A }.
Arguments mkSphere {A} _ _.
Arguments sp_c {A} _.
Arguments sp_r {A} _.

Section Round.
Context {A : Type} `{Num A} `{Trig A}.

(** ellipticalgeometry.hh:84-97: constructor (the assertion only applies to debug builds) *)
Definition make_ell (center maj min : V3 A) (a b : A) : ell A :=
  mkEll center maj min (to_dir (cross maj min)) a b.

(** ellipticalgeometry.hh:116-122: supportingPlane *)
Definition ell_plane (e : ell A) : plane A := plane_basis (e_c e) (e_maj e) (e_min e) (e_n e).

(** ellipse.hh:87-104, 111-112: contains *)
Definition ell_contains (e : ell A) (p : V3 A) (eps : A) (chk : bool) : bool :=
  if chk && negb (plane_contains (ell_plane e) p eps) then false
  else
    let d := vec_to (e_c e) p in
    let a := e_a e in
    let b := e_b e in
    let x := sprod d (e_maj e) in
    let y := sprod d (e_min e) in
    nabs (x * x / (a * a) + y * y / (b * b) - n1) <? eps.
Definition ell_contains_default (e : ell A) (p : V3 A) (chk : bool) : bool :=
  ell_contains e p confusion chk.

(** ellipse.hh:135-151, circle.hh:137-153: getPointFromAngle (radius() is the major axis
    length, and the two lengths of a circle are the same) *)
Definition ell_angle_point (e : ell A) (angle : A) : V3 A :=
  let x := ncos angle * e_a e in
  let y := nsin angle * e_b e in
  vadd (vadd (e_c e) (vscale (e_maj e) x)) (vscale (e_min e) y).

(** ellipse.hh:122-126, circle.hh:124-128: getPoint *)
Definition ell_point (e : ell A) (param : A) : V3 A :=
  ell_angle_point e (nlit 2 1 * npi * param).

(** ellipse.hh:180-198: the angle of a point without the check *)
Definition ell_angle (e : ell A) (p : V3 A) : A :=
  let d := vec_to (e_c e) p in
  let x := sprod d (e_maj e) in
  let y := sprod d (e_min e) in
  if nabs x <? e_a e * confusion then
    if nsign y then nlit 3 1 * npi / nlit 2 1 else npi / nlit 2 1
  else if nabs y <? e_b e * confusion then
    if nsign x then npi else n0
  else
    let ratio := e_a e / e_b e in
    if negb (nsign y) && negb (nsign x) then natan (y * ratio / x)
    else if nsign y && negb (nsign x) then nlit 2 1 * npi + natan (y * ratio / x)
    else npi + natan (y * ratio / x).

(** ellipse.hh:174-199: getAngle; 163-164: getParam *)
Definition ell_get_angle (e : ell A) (p : V3 A) (chk : bool) : outcome A :=
  if chk && negb (ell_contains_default e p true) then Throw RuntimeError
  else Ok (ell_angle e p).
Definition ell_get_param (e : ell A) (p : V3 A) (chk : bool) : outcome A :=
  obind (ell_get_angle e p chk) (fun angle => Ok (angle / (nlit 2 1 * npi))).

(** circle.hh:78-82, 157-164: constructor; the cross product is converted to a Direction *)
Definition make_circle (center normal : V3 A) (radius : A) : ell A :=
  let maj := to_dir (make_orthogonal normal) in
  let min := cross normal maj in
  make_ell center maj (to_dir min) radius radius.

(** circle.hh:99-106, 113-114: contains *)
Definition circle_contains (c : ell A) (p : V3 A) (eps : A) : bool :=
  if negb (plane_contains (ell_plane c) p eps) then false
  else nabs (vlen (vec_to p (e_c c)) - e_a c) <? eps.
Definition circle_contains_default (c : ell A) (p : V3 A) : bool :=
  circle_contains c p (confusion * e_a c).

(** ellipsearc.hh:77-101: constructor *)
Definition make_arc (e : ell A) (source target : V3 A) : outcome (arc A) :=
  let eps := e_a e * confusion in
  if pt_eq source target eps then
    obind (ell_get_angle e source true) (fun s =>
    Ok (mkArc e source target s (if s <? angular then nlit 2 1 * npi else s) true))
  else
    obind (ell_get_angle e source true) (fun s =>
    obind (ell_get_angle e target true) (fun t =>
    Ok (mkArc e source target s t false))).

(** ellipsearc.hh:130-141, 150-151: contains.  The angle is computed by getAngle, which checks
    with its own tolerance. *)
Definition arc_contains (c : arc A) (p : V3 A) (eps : A) (chk : bool) : outcome bool :=
  if chk && negb (ell_contains (a_ell c) p eps true) then Ok false
  else obind (ell_get_angle (a_ell c) p chk) (fun angle =>
       Ok (if a_s c >? a_t c
           then (angle >=? a_s c - eps) || (angle <=? a_t c + eps)
           else (angle >=? a_s c - eps) && (angle <=? a_t c + eps))).
Definition arc_contains_default (c : arc A) (p : V3 A) (chk : bool) : outcome bool :=
  arc_contains c p angular chk.

(** ellipsearc.hh:156-166: getPoint (the value for full ellipses at line 161 is overwritten in
    both branches that follow) *)
Definition arc_delta (c : arc A) : A :=
  if a_s c <? a_t c then a_t c - a_s c else nlit 2 1 * npi - a_s c + a_t c.
Definition arc_point (c : arc A) (param : A) : V3 A :=
  ell_angle_point (a_ell c) (a_s c + arc_delta c * param).

(** disk.hh:82-86: area *)
Definition disk_area (d : ell A) : A := npi * e_a d * e_b d.

(** disk.hh:98-113, 121-122: contains *)
Definition disk_contains (d : ell A) (p : V3 A) (eps : A) (chk : bool) : bool :=
  if chk && negb (plane_contains (ell_plane d) p eps) then false
  else
    let dx := vec_to (e_c d) p in
    let a := e_a d in
    let b := e_b d in
    let x := sprod dx (e_maj d) in
    let y := sprod dx (e_min d) in
    x * x / (a * a) + y * y / (b * b) <=? n1 + eps * eps.
Definition disk_contains_default (d : ell A) (p : V3 A) (chk : bool) : bool :=
  disk_contains d p confusion chk.

(** disk.hh:141-148: boundingEllipse; 71-77: constructor from an ellipse *)
Definition disk_ellipse (d : ell A) : ell A :=
  make_ell (e_c d) (e_maj d) (e_min d) (e_a d) (e_b d).
Definition disk_of_ellipse (e : ell A) : ell A :=
  make_ell (e_c e) (e_maj e) (e_min e) (e_a e) (e_b e).

(** disk.hh:129-138: getPoint *)
Definition disk_point (d : ell A) (param1 param2 : A) : V3 A :=
  let p := ell_point (disk_ellipse d) param1 in
  let v := vscale (vec_to (e_c d) p) param2 in
  vadd p v.

(** cylinder.hh:83-96: axis-aligned constructor *)
Definition make_cyl_z (radius height z_offset : A) : cyl A :=
  let ex := to_dir (mkV3 n1 n0 n0) in
  let ey := to_dir (mkV3 n0 n1 n0) in
  mkCyl height
    (make_ell (mkV3 n0 n0 (z_offset + height)) ex ey radius radius)
    (make_ell (mkV3 n0 n0 z_offset) ex ey radius radius).

(** cylinder.hh:186-197: makeTopDisk_ *)
Definition make_top_disk (bottom : ell A) (height : A) : ell A :=
  make_ell (vadd (e_c bottom) (vscale (e_n bottom) height))
           (e_maj bottom) (e_min bottom) (e_a bottom) (e_b bottom).

(** cylinder.hh:114-123: constructor from a disk *)
Definition make_cyl_disk (bottom : ell A) (height : A) : outcome (cyl A) :=
  let eps := e_a bottom * confusion in
  if nabs (e_a bottom - e_b bottom) >? eps then Throw RuntimeError
  else Ok (mkCyl height (make_top_disk bottom height) bottom).

(** cylinder.hh:103-107: constructor from a circle *)
Definition make_cyl_circle (bottom : ell A) (height : A) : outcome (cyl A) :=
  make_cyl_disk (make_ell (e_c bottom) (e_maj bottom) (e_min bottom) (e_a bottom) (e_a bottom))
                height.

(** cylinder.hh:149-158: centerSegment, radius, volume (the same for CylinderSurface,
    cylindersurface.hh:116, 126-127) *)
Definition cyl_axis (c : cyl A) : segment A := mkSeg (e_c (c_bot c)) (e_c (c_top c)).
Definition cyl_radius (c : cyl A) : A := e_a (c_bot c).
Definition cyl_volume (c : cyl A) : A := npi * cyl_radius c * cyl_radius c * c_h c.

(** cylinder.hh:165-175, 181-182: contains *)
Definition cyl_contains (c : cyl A) (p : V3 A) (eps : A) : bool :=
  let seg := cyl_axis c in
  let proj := line_proj (seg_line seg) p in
  if negb (seg_contains seg proj eps true) then false
  else sqlen (vec_to proj p) <=? cyl_radius c * cyl_radius c + eps * eps.
Definition cyl_eps (c : cyl A) : A := confusion * nlit 1 2 * (cyl_radius c + c_h c).
Definition cyl_contains_default (c : cyl A) (p : V3 A) : bool := cyl_contains c p (cyl_eps c).

(** cylindersurface.hh:178-187: makeTopCircle_; 95-99, 83-87: constructors *)
Definition make_top_circle (bottom : ell A) (height : A) : ell A :=
  make_circle (vadd (e_c bottom) (vscale (e_n bottom) height)) (e_n bottom) (e_a bottom).
Definition make_surf (bottom : ell A) (height : A) : cyl A :=
  mkCyl height (make_top_circle bottom height) bottom.
Definition make_surf_z (radius height : A) : cyl A :=
  let ez := to_dir (mkV3 n0 n0 n1) in
  mkCyl height (make_circle (mkV3 n0 n0 height) ez radius) (make_circle (mkV3 n0 n0 n0) ez radius).

(** cylindersurface.hh:118: area; 130-131: cylinder *)
Definition surf_area (c : cyl A) : A := nlit 2 1 * npi * cyl_radius c * c_h c.
Definition surf_cylinder (c : cyl A) : outcome (cyl A) := make_cyl_circle (c_bot c) (c_h c).

(** cylinder.hh:142-147: lateralFace *)
Definition cyl_lateral (c : cyl A) : cyl A :=
  make_surf (make_circle (e_c (c_bot c)) (e_n (c_bot c)) (e_a (c_bot c))) (c_h c).

(** cylindersurface.hh:144-149: getTangentPlane *)
Definition surf_tangent (c : cyl A) (p : V3 A) : plane A :=
  let n := to_dir (vec_to (line_proj (seg_line (cyl_axis c)) p) p) in
  plane_pn p n.

(** cylindersurface.hh:156-167, 173-174: contains *)
Definition surf_contains (c : cyl A) (p : V3 A) (eps : A) : bool :=
  let seg := cyl_axis c in
  let proj := line_proj (seg_line seg) p in
  if negb (seg_contains seg proj eps true) then false
  else nabs (vlen (vec_to proj p) - cyl_radius c) <? eps.
Definition surf_contains_default (c : cyl A) (p : V3 A) : bool := surf_contains c p (cyl_eps c).

(** hollowcylinder.hh:96-113, 83-87: constructors *)
Definition make_hollow (bottom axis : V3 A) (inner outer height : A) : outcome (hollow A) :=
  if outer <? inner then Throw RuntimeError
  else Ok (mkHollow (make_circle bottom axis inner)
                    (make_circle (vadd bottom (vscale axis height)) axis inner) outer height).
Definition make_hollow_z (inner outer height : A) : outcome (hollow A) :=
  make_hollow (mkV3 n0 n0 n0) (to_dir (mkV3 n0 n0 n1)) inner outer height.

(** hollowcylinder.hh:164-165, 178-187: centerSegment, innerRadius, volume *)
Definition hollow_axis (h : hollow A) : segment A := mkSeg (e_c (h_bot h)) (e_c (h_top h)).
Definition hollow_inner (h : hollow A) : A := e_a (h_bot h).
Definition hollow_volume (h : hollow A) : A :=
  npi * h_h h * (h_outer h * h_outer h - hollow_inner h * hollow_inner h).

(** hollowcylinder.hh:132-145: bottomOuterCircle, topOuterCircle; 148-161: lateral faces;
    168-174: fullCylinder *)
Definition hollow_bot_outer (h : hollow A) : ell A :=
  make_circle (e_c (h_bot h)) (e_n (h_bot h)) (h_outer h).
Definition hollow_top_outer (h : hollow A) : ell A :=
  make_circle (e_c (h_top h)) (e_n (h_bot h)) (h_outer h).
Definition hollow_inner_face (h : hollow A) : cyl A := make_surf (h_bot h) (h_h h).
Definition hollow_outer_face (h : hollow A) : cyl A := make_surf (hollow_bot_outer h) (h_h h).
Definition hollow_full (h : hollow A) : outcome (cyl A) :=
  make_cyl_circle (make_circle (e_c (h_bot h)) (e_n (h_bot h)) (h_outer h)) (h_h h).

(** hollowcylinder.hh:194-206, 213-214: contains *)
Definition hollow_contains (h : hollow A) (p : V3 A) (eps : A) : bool :=
  let seg := hollow_axis h in
  let proj := line_proj (seg_line seg) p in
  if negb (seg_contains seg proj eps true) then false
  else
    let d2 := sqlen (vec_to proj p) in
    let e2 := eps * eps in
    (d2 <=? h_outer h * h_outer h + e2) && (d2 >=? hollow_inner h * hollow_inner h - e2).
Definition hollow_eps (h : hollow A) : A := confusion * nlit 1 2 * (h_outer h + h_h h).
Definition hollow_contains_default (h : hollow A) (p : V3 A) : bool :=
  hollow_contains h p (hollow_eps h).

(** sphere.hh:83-87, 94-95: contains; 76: volume *)
Definition sphere_contains (s : sphere A) (p : V3 A) (eps : A) : bool :=
  sqlen (vec_to (sp_c s) p) - sp_r s * sp_r s <? eps * eps.
Definition sphere_contains_default (s : sphere A) (p : V3 A) : bool :=
  sphere_contains s p (sp_r s * confusion).
Definition sphere_volume (s : sphere A) : A :=
  nlit 4 1 / nlit 3 1 * npi * sp_r s * sp_r s * sp_r s.

End Round.
