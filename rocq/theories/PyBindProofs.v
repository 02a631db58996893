(** Dispatch of the Python functions. *)

From Coq Require Import ZArith String List Bool Lia.
From Verif Require Import Base NumModel VecModel LinModel RoundModel PolyModel DistModel PyBindModel.
Import ListNotations.
Local Open Scope list_scope.
Local Open Scope num_scope.

Section Dispatch.
Context {A S : Type} `{Num A} `{Trig A} (oc : @occ A S).

Ltac cases g := destruct g as [?|? ?|?|?|? ?|?|?|? ?|?|?|?|?|?|?|?|?|?|?|?|?|?|?|?|?|[] ?].

Lemma get_shape_own (g : geo A S) : class_of g <> CArc -> In (class_of g) shape_classes ->
  py_get_shape oc (PObj g) = get_shape_of oc g.
Proof. intros Hn Hi. cases g; try (exfalso; apply Hn; reflexivity); try reflexivity; exfalso; cbn in Hi; repeat (destruct Hi as [Hi|Hi]; [discriminate Hi|]); exact Hi. Qed.
Lemma get_shape_other (g : geo A S) : ~ In (class_of g) shape_classes -> py_get_shape oc (PObj g) = Throw TypeError.
Proof. intros Hi. cases g; try reflexivity; exfalso; apply Hi; cbn; tauto. Qed.
Lemma get_shape_arc (c : arc A) : py_get_shape oc (PObj (GArc c)) = get_shape_of oc (GEllipse (a_ell c)).
Proof. reflexivity. Qed.

Lemma magnitude_own (g : geo A S) : class_of g <> CArc -> In (class_of g) magnitude_classes ->
  py_magnitude oc (PObj g) = magnitude oc g.
Proof. intros Hn Hi. cases g; try (exfalso; apply Hn; reflexivity); try reflexivity; exfalso; cbn in Hi; repeat (destruct Hi as [Hi|Hi]; [discriminate Hi|]); exact Hi. Qed.
Lemma magnitude_other (g : geo A S) : ~ In (class_of g) magnitude_classes -> py_magnitude oc (PObj g) = Throw TypeError.
Proof. intros Hi. cases g; try reflexivity; exfalso; apply Hi; cbn; tauto. Qed.
Lemma magnitude_arc (c : arc A) : py_magnitude oc (PObj (GArc c)) = Ok (length_ellipse (a_ell c)).
Proof. reflexivity. Qed.

Lemma bbox_own (g : geo A S) : class_of g <> CArc -> In (class_of g) bbox_classes ->
  py_bounding_box oc (PObj g) = bounding_box oc g.
Proof. intros Hn Hi. cases g; try (exfalso; apply Hn; reflexivity); try reflexivity; exfalso; cbn in Hi; repeat (destruct Hi as [Hi|Hi]; [discriminate Hi|]); exact Hi. Qed.
Lemma bbox_arc (c : arc A) : py_bounding_box oc (PObj (GArc c)) = bounding_box oc (GEllipse (a_ell c)).
Proof. reflexivity. Qed.

(** distances *)
Lemma wrap_ok (g : geo A S) : py_wrap oc (PObj g) =
  obind (py_get_shape oc (PObj g)) (fun w => match w with GWrap _ s => Ok (GWrap WShape s) | _ => Throw TypeError end).
Proof.
  unfold py_wrap. destruct (py_get_shape oc (PObj g)) as [w| | |]; cbn [obind]; try reflexivity.
  cases w; reflexivity.
Qed.
Lemma get_shape_wrap (g w : geo A S) : py_get_shape oc (PObj g) = Ok w -> exists k s, w = GWrap k s.
Proof.
  cases g; cbv -[oc_shape obind]; try discriminate; intros E; try (injection E as <-; eauto; fail);
    match type of E with obind ?x _ = _ => destruct x; cbn in E; try discriminate E; injection E as <-; eauto end.
Qed.
(** distance of two geometries that have shapes, and no formula *)
Definition by_shapes (g1 g2 : geo A S) : outcome A :=
  obind (py_get_shape oc (PObj g1)) (fun w1 => obind (py_get_shape oc (PObj g2)) (fun w2 =>
    match w1, w2 with GWrap _ s1, GWrap _ s2 => oc_dist oc s1 s2 | _, _ => UB end)).
Lemma distance_fallback (g1 g2 : geo A S) :
  obind (py_wrap oc (PObj g1)) (fun w1 => obind (py_wrap oc (PObj g2)) (fun w2 =>
       call (distance_table oc) [PObj w1; PObj w2] [])) = by_shapes g1 g2.
Proof.
  unfold by_shapes. rewrite !wrap_ok.
  destruct (py_get_shape oc (PObj g1)) as [w1| | |] eqn:E1; cbn [obind]; try reflexivity.
  destruct (get_shape_wrap _ _ E1) as (k1 & s1 & ->). cbn [obind].
  destruct (py_get_shape oc (PObj g2)) as [w2| | |] eqn:E2; cbn [obind]; try reflexivity.
  destruct (get_shape_wrap _ _ E2) as (k2 & s2 & ->). cbn [obind]. reflexivity.
Qed.
(** the pairs with an overload of their own *)
Definition formula (g1 g2 : geo A S) : bool :=
  match g1, g2 with
  | GPoint _, GPoint _ | GSegment _, GPoint _ | GPoint _, GSegment _ => true
  | _, _ => false
  end.
Lemma distance1_formula (g1 g2 : geo A S) : formula g1 g2 = true ->
  py_distance1 oc (PObj g1) (PObj g2) = distance oc g1 g2.
Proof. cases g1; try discriminate; cases g2; try discriminate; reflexivity. Qed.
Lemma table_other (g1 g2 : geo A S) : formula g1 g2 = false ->
  (exists s1 s2, g1 = GWrap WShape s1 /\ g2 = GWrap WShape s2) \/ call (distance_table oc) [PObj g1; PObj g2] [] = Throw TypeError.
Proof.
  intros F. destruct (Nat.eq_dec (cls_code (class_of g1)) 24) as [E1|E1].
  - cases g1; try discriminate E1. destruct (Nat.eq_dec (cls_code (class_of g2)) 24) as [E2|E2].
    + cases g2; try discriminate E2. left. eauto.
    + right. cases g2; try (exfalso; apply E2; reflexivity); reflexivity.
  - right. cases g1; try (exfalso; apply E1; reflexivity); try reflexivity;
      cases g2; try discriminate F; reflexivity.
Qed.
Lemma distance1_other (g1 g2 : geo A S) : formula g1 g2 = false ->
  (exists s1 s2, g1 = GWrap WShape s1 /\ g2 = GWrap WShape s2 /\ py_distance1 oc (PObj g1) (PObj g2) = try_except (oc_dist oc s1 s2) (oc_dist oc s1 s2)) \/
  py_distance1 oc (PObj g1) (PObj g2) = by_shapes g1 g2.
Proof.
  intros F. unfold py_distance1. rewrite distance_fallback. destruct (table_other g1 g2 F) as [(s1 & s2 & -> & ->)|E].
  - left. exists s1, s2. repeat split; reflexivity.
  - right. rewrite E. reflexivity.
Qed.
Lemma try_same {R} (x : outcome R) : try_except x x = x.
Proof. destruct x; reflexivity. Qed.
Lemma distance1_shapes (g1 g2 : geo A S) : formula g1 g2 = false ->
  py_distance1 oc (PObj g1) (PObj g2) = by_shapes g1 g2.
Proof.
  intros F. destruct (distance1_other g1 g2 F) as [(s1 & s2 & -> & -> & E)|E]; [|exact E].
  rewrite E, try_same. reflexivity.
Qed.

(** The distance computed by Python is the one computed by the library, for all pairs of
    objects that have shapes and are no arcs. *)
Definition shaped (g : geo A S) : Prop := class_of g <> CArc /\ In (class_of g) shape_classes.
Lemma no_line (g : geo A S) : In (class_of g) shape_classes -> forall l, g <> GLine l.
Proof. intros Hi l ->. cbn in Hi. repeat (destruct Hi as [Hi|Hi]; [discriminate Hi|]). exact Hi. Qed.
Lemma distance_shapes (g1 g2 : geo A S) : formula g1 g2 = false -> (forall l, g1 <> GLine l) -> (forall l, g2 <> GLine l) ->
  distance oc g1 g2 = obind (get_shape_of oc g1) (fun w1 => obind (get_shape_of oc g2) (fun w2 =>
    match w1, w2 with GWrap _ s1, GWrap _ s2 => oc_dist oc s1 s2 | _, _ => UB end)).
Proof.
  intros F N1 N2. cases g1; try reflexivity; try (exfalso; eapply N1; reflexivity);
    cases g2; try discriminate F; try (exfalso; eapply N2; reflexivity); reflexivity.
Qed.
Lemma py_distance_ok (g1 g2 : geo A S) : shaped g1 -> shaped g2 ->
  py_distance oc (PObj g1) (PObj g2) = distance oc g1 g2.
Proof.
  intros [A1 I1] [A2 I2]. cbn [py_distance]. destruct (formula g1 g2) eqn:F; [apply distance1_formula; exact F|].
  rewrite (distance1_shapes _ _ F), (distance_shapes _ _ F) by (apply no_line; assumption).
  unfold by_shapes. rewrite !get_shape_own by assumption. reflexivity.
Qed.
Lemma py_distance_arc (g : geo A S) c : shaped g ->
  py_distance oc (PObj g) (PObj (GArc c)) = distance oc g (GEllipse (a_ell c)).
Proof.
  intros [A1 I1]. cbn [py_distance]. assert (F : formula g (GArc c) = false) by (cases g; reflexivity).
  assert (F' : formula g (GEllipse (a_ell c)) = false) by (cases g; reflexivity).
  rewrite (distance1_shapes _ _ F), (distance_shapes _ _ F'); [|apply no_line; exact I1|discriminate].
  unfold by_shapes. rewrite get_shape_arc, get_shape_own by assumption. reflexivity.
Qed.
Lemma py_distance_line (p : V3 A) l : py_distance oc (PObj (GPoint p)) (PObj (GLine l)) =
  match oc_shape oc (GPoint p) with Ok _ => Throw TypeError | Throw e => Throw e | UB => UB | Diverge => Diverge end.
Proof.
  cbn [py_distance]. rewrite distance1_shapes by reflexivity. unfold by_shapes.
  rewrite (get_shape_own (GPoint p)) by (cbn; first [discriminate|tauto]). cbn [get_shape_of].
  destruct (oc_shape oc (GPoint p)); reflexivity.
Qed.

(** Lists *)
Lemma traverse_ok {X R} (f : X -> outcome R) l ds : Forall2 (fun x d => f x = Ok d) l ds -> traverse f l = Ok ds.
Proof. intros Hf. induction Hf as [|x d l ds E Hf IH]; [reflexivity|]. cbn [traverse]. rewrite E, IH. reflexivity. Qed.
Lemma py_distance_list v (l : list (pyval A S)) ds : Forall2 (fun w d => py_distance1 oc v w = Ok d) l ds ->
  py_distance oc v (PList l) = py_min ds.
Proof. intros Hf. cbn [py_distance]. rewrite (traverse_ok _ _ _ Hf). reflexivity. Qed.
Lemma distance1_obj (v : pyval A S) (g : geo A S) : py_distance1 oc v (PObj g) = py_distance oc v (PObj g).
Proof. reflexivity. Qed.

(** computeDistanceToBoundary is computeDistance *)
Lemma boundary_wrapped (s : S) (g2 : geo A S) d :
  call (boundary_table oc) [PObj (GWrap WShape s); PObj g2] [] = Ok d ->
  py_distance oc (PObj (GWrap WShape s)) (PObj g2) = Ok d.
Proof.
  intros E. rewrite py_distance_ok; [|split; [discriminate|cbn; tauto]|].
  - cases g2; cbv -[oc_shape oc_dist obind] in E; try discriminate E; exact E.
  - cases g2; cbv -[oc_shape oc_dist obind] in E; try discriminate E; (split; [discriminate|cbn; tauto]).
Qed.
Lemma boundary_is_distance (g1 g2 : geo A S) d : py_distance_boundary oc (PObj g1) (PObj g2) = Ok d ->
  py_distance oc (PObj g1) (PObj g2) = Ok d.
Proof.
  unfold py_distance_boundary. destruct (call (boundary_table oc) [PObj g1; PObj g2] []) as [x|e| |] eqn:E; cbn [try_except]; try discriminate.
  - intros [= ->]. cases g1; try (cbv -[oc_shape oc_dist obind] in E; discriminate E).
    + rewrite py_distance_ok; [|split; [discriminate|cbn; tauto]|].
      * cases g2; cbv -[oc_shape oc_dist obind] in E; try discriminate E; exact E.
      * cases g2; cbv -[oc_shape oc_dist obind] in E; try discriminate E; (split; [discriminate|cbn; tauto]).
    + apply boundary_wrapped. exact E.
  - clear E. rewrite wrap_ok. destruct (py_get_shape oc (PObj g1)) as [w| | |] eqn:E; cbn [obind]; try discriminate.
    destruct (get_shape_wrap _ _ E) as (k & s & ->). cbn [obind]. intros E2.
    assert (F2 : formula g1 g2 = false).
    { assert (N2 : match g2 with GPoint _ | GSegment _ => False | _ => True end).
      { cases g2; try exact I; cbv -[oc_shape oc_dist obind] in E2; discriminate E2. }
      clear -N2. cases g1; try reflexivity; cases g2; try contradiction N2; reflexivity. }
    apply boundary_wrapped in E2.
    cbn [py_distance] in *. assert (F : formula (GWrap WShape s) g2 = false) by (cases g2; reflexivity).
    rewrite (distance1_shapes _ _ F) in E2. unfold by_shapes in E2. rewrite (get_shape_own (GWrap WShape s)) in E2; [|discriminate|cbn; tauto].
    cbn [get_shape_of obind] in E2.
    rewrite (distance1_shapes _ _ F2). unfold by_shapes. rewrite E. cbn [obind]. exact E2.
Qed.
(** the pairs of computeDistanceToBoundary *)
Definition has_boundary (g : geo A S) : Prop :=
  match g with GQuad _ | GPolygon _ | GDisk _ | GSurface _ | GWrap WFace _ | GWrap WSolid _ => True | _ => False end.
Lemma boundary_ok (g1 g2 : geo A S) : shaped g1 -> has_boundary g2 -> (forall p, g1 <> GPoint p) ->
  py_distance_boundary oc (PObj g1) (PObj g2) = obind (get_shape_of oc g1) (fun w1 => obind (get_shape_of oc g2) (fun w2 =>
    match w1, w2 with GWrap _ s1, GWrap _ s2 => oc_dist oc s1 s2 | _, _ => UB end)).
Proof.
  intros [A1 I1] B N. unfold py_distance_boundary. 
  assert (L : forall s, call (boundary_table oc) [PObj (GWrap WShape s); PObj g2] [] = obind (get_shape_of oc g2) (fun w2 =>
    match w2 with GWrap _ s2 => oc_dist oc s s2 | _ => UB end)) by (intros s; cases g2; try contradiction B; reflexivity).
  assert (W : obind (py_wrap oc (PObj g1)) (fun w1 => call (boundary_table oc) [PObj w1; PObj g2] []) =
     obind (get_shape_of oc g1) (fun w1 => obind (get_shape_of oc g2) (fun w2 =>
    match w1, w2 with GWrap _ s1, GWrap _ s2 => oc_dist oc s1 s2 | _, _ => UB end))).
  { rewrite wrap_ok. rewrite get_shape_own by assumption. pose proof (get_shape_wrap g1) as G. rewrite get_shape_own in G by assumption.
    destruct (get_shape_of oc g1) as [w| | |]; cbn [obind]; try reflexivity. destruct (G w eq_refl) as (k & s & ->). cbn [obind]. apply L. }
  rewrite W. clear W. set (X := obind (get_shape_of oc g1) _) in *.
  assert (K : (exists s, g1 = GWrap WShape s) \/ call (boundary_table oc) [PObj g1; PObj g2] [] = Throw TypeError).
  { cases g1; try (exfalso; eapply N; reflexivity); try (left; eauto; fail); right; reflexivity. }
  destruct K as [[s ->]|K]; [|rewrite K; reflexivity].
  rewrite L. apply try_same.
Qed.

Lemma boundary_point (p : V3 A) (g : geo A S) sp sg d : has_boundary g \/ (exists b, g = GBox b) ->
  oc_shape oc (GPoint p) = Ok sp -> (exists k, get_shape_of oc g = Ok (GWrap k sg)) -> oc_dist oc sp sg = Ok d ->
  py_distance_boundary oc (PObj (GPoint p)) (PObj g) = Ok d.
Proof.
  intros Hb E1 [k E2] E3.
  assert (D : distance oc (GPoint p) g = Ok d).
  { destruct Hb as [Hb|[b ->]]; [cases g; try contradiction Hb|]; cbn [distance get_shape_of] in *; rewrite E1; cbn [obind];
    try (rewrite E2; cbn [obind]; exact E3); injection E2 as <- <-; exact E3. }
  assert (W : py_wrap oc (PObj (GPoint p)) = Ok (GWrap WShape sp)).
  { rewrite wrap_ok, get_shape_own by (cbn; first [discriminate|tauto]). cbn [get_shape_of]. rewrite E1. reflexivity. }
  assert (D' : distance oc (GWrap WShape sp) g = Ok d).
  { destruct Hb as [Hb|[b ->]]; [cases g; try contradiction Hb|]; cbn [distance get_shape_of obind] in *;
    try (rewrite E2; cbn [obind]; exact E3); injection E2 as <- <-; exact E3. }
  unfold py_distance_boundary. rewrite W. cbn [obind].
  destruct Hb as [Hb|[b ->]]; [cases g; try contradiction Hb|].
  1: transitivity (try_except (@Throw A TypeError) (distance oc (GWrap WShape sp) (GDisk d0))); [reflexivity|rewrite D'; reflexivity].
  1: transitivity (try_except (distance oc (GPoint p) (GQuad q)) (distance oc (GWrap WShape sp) (GQuad q))); [reflexivity|rewrite D; reflexivity].
  1: transitivity (try_except (distance oc (GPoint p) (GPolygon pg)) (distance oc (GWrap WShape sp) (GPolygon pg))); [reflexivity|rewrite D; reflexivity].
  1: transitivity (try_except (@Throw A TypeError) (distance oc (GWrap WShape sp) (GSurface c))); [reflexivity|rewrite D'; reflexivity].
  1: transitivity (try_except (@Throw A TypeError) (distance oc (GWrap WShape sp) (GWrap WFace s))); [reflexivity|rewrite D'; reflexivity].
  1: transitivity (try_except (@Throw A TypeError) (distance oc (GWrap WShape sp) (GWrap WSolid s))); [reflexivity|rewrite D'; reflexivity].
  transitivity (try_except (distance oc (GPoint p) (GBox b)) (@Throw A TypeError)); [reflexivity|rewrite D; reflexivity].
Qed.

(** numbers of Python *)
Definition py_number (v : pyval A S) (x : A) : Prop := v = PFloat x \/ exists z, v = PInt z /\ x = nlit z 1.
Lemma cast_number v x : py_number v x -> cast true TNum v = Some (VNum x).
Proof. intros [->|(z & -> & ->)]; reflexivity. Qed.

Section Contains.
Context (c_abs : A -> A).
(** with a tolerance of type float, by position or by name *)
Lemma contains_float (g : geo A S) d e p x b : flag_default c_abs g = Some d -> flag_eps c_abs g = Some e ->
  py_contains c_abs g [PObj (GPoint p); PFloat x] [] = e p x true /\
  py_contains c_abs g [PObj (GPoint p); PFloat x; PBool b] [] = e p x b /\
  (forall v, py_number v x -> py_contains c_abs g [PObj (GPoint p)] [("eps"%string, v)] = e p x true /\
    py_contains c_abs g [PObj (GPoint p); v; PBool b] [] = e p x b) /\
  py_contains c_abs g [PObj (GPoint p)] [] = d p true /\
  py_contains c_abs g [PObj (GPoint p); PBool b] [] = d p b.
Proof.
  intros E1 E2. unfold py_contains. rewrite E1, E2.
  assert (N : flag_name g = "checkIfOnLine"%string \/ flag_name g = "checkIfOnEllipse"%string \/ flag_name g = "checkIfOnPlane"%string) by (cases g; cbn; auto).
  clear E1 E2. split; [reflexivity|]. split; [reflexivity|]. split; [|split; reflexivity].
  intros v [->|(z & -> & ->)]; (split; [destruct N as [-> |[-> | ->]]; reflexivity|reflexivity]).
Qed.
(** a tolerance of type int is taken for the flag *)
Lemma contains_int (g : geo A S) d e p z : flag_default c_abs g = Some d -> flag_eps c_abs g = Some e ->
  py_contains c_abs g [PObj (GPoint p); PInt z] [] = d p (negb (Z.eqb z 0)).
Proof. intros E1 E2. unfold py_contains. rewrite E1, E2. reflexivity. Qed.
Lemma contains_plain (g : geo A S) e p v x : plain_eps g = Some e -> py_number v x ->
  py_contains c_abs g [PObj (GPoint p); v] [] = Ok (e p x) /\
  py_contains c_abs g [PObj (GPoint p)] [("eps"%string, v)] = Ok (e p x).
Proof.
  intros E. unfold py_contains. assert (F : flag_default c_abs g = None /\ flag_eps c_abs g = None) by (cases g; try discriminate E; split; reflexivity).
  destruct F as [-> _]. rewrite E. intros [->|(z & -> & ->)]; destruct (plain_default g); split; reflexivity.
Qed.
End Contains.

Section Constructors.
Lemma traverse_nums (l : list (pyval A S)) xs : Forall2 py_number l xs -> traverse list_num l = Ok xs.
Proof.
  intros Hf. apply traverse_ok. induction Hf as [|v x l xs Hv Hf IH]; constructor; [|exact IH].
  unfold list_num. rewrite (cast_number _ _ Hv). reflexivity.
Qed.
Lemma firstn_forall2 {X Y} (P : X -> Y -> Prop) n l m : Forall2 P l m -> Forall2 P (firstn n l) (firstn n m).
Proof. intros Hf. revert n. induction Hf; intros [|n]; cbn; constructor; auto. Qed.
Lemma list_coords_ok dim (l : list (pyval A S)) xs : Forall2 py_number l xs ->
  list_coords dim l = Ok (firstn dim xs ++ repeat n0 (dim - length xs)).
Proof.
  intros Hf. unfold list_coords. rewrite (traverse_nums _ _ (firstn_forall2 _ dim _ _ Hf)). cbn [obind].
  rewrite firstn_length. f_equal. f_equal. f_equal. lia.
Qed.
Lemma forall2_length {X Y} (P : X -> Y -> Prop) l m : Forall2 P l m -> length l = length m.
Proof. induction 1; cbn; congruence. Qed.

(** the objects with given coordinates *)
Definition coords (g : geo A S) : option (list A) :=
  match g with
  | GPoint1 x | GVector1 x => Some [x]
  | GPoint2 x y | GVector2 x y => Some [x; y]
  | GPoint p | GVector p => Some [vx p; vy p; vz p]
  | _ => None
  end.
Definition is_point (g : geo A S) : Prop := match g with GPoint1 _ | GPoint2 _ _ | GPoint _ => True | _ => False end.
Definition is_vector (g : geo A S) : Prop := match g with GVector1 _ | GVector2 _ _ | GVector _ => True | _ => False end.

Ltac split_nums xs Hl :=
  destruct xs as [|?x [|?x [|?x [|?x ?xs]]]]; cbn in Hl; try lia;
  repeat match goal with H : Forall2 _ _ _ |- _ => inversion_clear H end;
  repeat match goal with H : py_number _ _ |- _ => destruct H as [->|(? & -> & ->)] end.

Lemma point_args (l : list (pyval A S)) xs : Forall2 py_number l xs -> (1 <= length xs <= 3)%nat ->
  exists g, py_point l [] = Ok g /\ is_point g /\ coords g = Some xs.
Proof.
  intros Hf Hl. split_nums xs Hl; eexists; (split; [reflexivity|split; [exact I|reflexivity]]).
Qed.
Lemma point_list (l : list (pyval A S)) xs : Forall2 py_number l xs ->
  exists g, py_point [PList l] [] = Ok g /\ is_point g /\
    coords g = Some (match length xs with 0 => [n0; n0; n0] | 1 => xs | 2 => xs | _ => firstn 3 xs end)%nat.
Proof.
  intros Hf. pose proof (forall2_length _ _ _ Hf) as Hl. unfold py_point. cbn [length Nat.add].
  rewrite Hl. destruct xs as [|x [|y [|z r]]]; cbn [length].
  - destruct l; [|discriminate]. eexists. split; [reflexivity|]. split; [exact I|reflexivity].
  - exists (GPoint1 x). split; [|split; [exact I|reflexivity]].
    transitivity (obind (list_coords 1 l) (mk1 (@GPoint1 A S))); [reflexivity|]. rewrite (list_coords_ok _ _ _ Hf). reflexivity.
  - exists (GPoint2 x y). split; [|split; [exact I|reflexivity]].
    transitivity (obind (list_coords 2 l) (mk2 (@GPoint2 A S))); [reflexivity|]. rewrite (list_coords_ok _ _ _ Hf). reflexivity.
  - exists (GPoint (mkV3 x y z)). split; [|split; [exact I|reflexivity]].
    transitivity (obind (list_coords 3 l) (mk3 (@GPoint A S))); [reflexivity|]. rewrite (list_coords_ok _ _ _ Hf). reflexivity.
Qed.
Lemma vector_args (l : list (pyval A S)) xs : Forall2 py_number l xs -> (2 <= length xs <= 3)%nat ->
  exists g, py_vector l [] = Ok g /\ is_vector g /\ coords g = Some xs.
Proof.
  intros Hf Hl. split_nums xs Hl; eexists; (split; [reflexivity|split; [exact I|reflexivity]]).
Qed.
Lemma vector_list (l : list (pyval A S)) xs : Forall2 py_number l xs ->
  exists g, py_vector [PList l] [] = Ok g /\ is_vector g /\
    coords g = Some (match length xs with 0 => [n0; n0; n0] | 1 => xs | 2 => xs | _ => firstn 3 xs end)%nat.
Proof.
  intros Hf. pose proof (forall2_length _ _ _ Hf) as Hl. unfold py_vector. cbn [length Nat.add].
  rewrite Hl. destruct xs as [|x [|y [|z r]]]; cbn [length make_vector].
  - destruct l; [|discriminate]. eexists. split; [reflexivity|]. split; [exact I|reflexivity].
  - exists (GVector1 x). split; [|split; [exact I|reflexivity]].
    transitivity (obind (list_coords 1 l) (mk1 (@GVector1 A S))); [reflexivity|]. rewrite (list_coords_ok _ _ _ Hf). reflexivity.
  - exists (GVector2 x y). split; [|split; [exact I|reflexivity]].
    transitivity (obind (list_coords 2 l) (mk2 (@GVector2 A S))); [reflexivity|]. rewrite (list_coords_ok _ _ _ Hf). reflexivity.
  - exists (GVector (mkV3 x y z)). split; [|split; [exact I|reflexivity]].
    transitivity (obind (list_coords 3 l) (mk3 (@GVector A S))); [reflexivity|]. rewrite (list_coords_ok _ _ _ Hf). reflexivity.
Qed.
Lemma vector_points (p q : V3 A) : py_vector [PObj (GPoint p); PObj (@GPoint A S q)] [] =
  Ok (GVector (mkV3 (vx q - vx p) (vy q - vy p) (vz q - vz p))).
Proof. reflexivity. Qed.
Lemma vector_direction (u : V3 A) : py_vector [PObj (@GDirection A S u)] [] = Ok (GVector u).
Proof. destruct u. reflexivity. Qed.
Lemma direction_vector (u : V3 A) : py_direction [PObj (@GVector A S u)] [] = Ok (GDirection (to_dir u)).
Proof. reflexivity. Qed.
Lemma circle_args c n v x : py_number v x -> py_circle [PObj (GPoint c); PObj (@GDirection A S n); v] [] = Ok (GCircle (make_circle c n x)).
Proof. intros [->|(z & -> & ->)]; reflexivity. Qed.
(** keyword arguments *)
Lemma point_keyword k (v : pyval A S) : py_point [] [(k, v)] = Throw OutOfRange.
Proof. reflexivity. Qed.
Lemma vector_keyword k (v : pyval A S) : py_vector [] [(k, v)] = Throw OutOfRange.
Proof. reflexivity. Qed.
Lemma vector_keywords (p q : V3 A) : py_vector [] [("source"%string, PObj (@GPoint A S p)); ("target"%string, PObj (GPoint q))] = Throw TypeError.
Proof. reflexivity. Qed.
Lemma vector_number (v : pyval A S) x : py_number v x -> py_vector [v] [] = Throw RuntimeError.
Proof. intros [->|(z & -> & ->)]; reflexivity. Qed.
Lemma direction_keyword (v : pyval A S) : py_direction [] [("vector"%string, v)] = Throw RuntimeError.
Proof. reflexivity. Qed.
Lemma circle_keywords (c n r : pyval A S) : py_circle [] [("center"%string, c); ("normal"%string, n); ("radius"%string, r)] = Throw RuntimeError.
Proof. reflexivity. Qed.
(** the classes themselves accept the keywords *)
Lemma class_keywords (p q c n : V3 A) v x : py_number v x ->
  py_point1 [] [("x"%string, v)] = Ok (@GPoint1 A S x) /\
  py_vector3 [] [("source"%string, PObj (@GPoint A S p)); ("target"%string, PObj (GPoint q))] = Ok (GVector (mkV3 (vx q - vx p) (vy q - vy p) (vz q - vz p))) /\
  py_direction3 [] [("vector"%string, PObj (@GVector A S c))] = Ok (GDirection (to_dir c)) /\
  py_circle3 [] [("center"%string, PObj (@GPoint A S c)); ("normal"%string, PObj (GDirection n)); ("radius"%string, v)] = Ok (GCircle (make_circle c n x)).
Proof. intros [->|(z & -> & ->)]; repeat split; reflexivity. Qed.
End Constructors.

(** magnitudes of given dimension *)
Lemma dim_magnitude dim (v : pyval A S) : py_dim_magnitude oc dim v =
  match v with
  | PObj g => match my_dimension v with
              | Some d => if Nat.eqb d dim then py_magnitude oc v else Throw TypeError
              | None => Throw TypeError end
  | _ => Throw TypeError end.
Proof. destruct v; reflexivity. Qed.
End Dispatch.
