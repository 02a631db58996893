(** Proofs about the intersections of face shapes. *)

From Coq Require Import Reals Lra List Bool.
From Verif Require Import Base NumModel VecModel LinModel FaceFaceModel GeoSpec LinSpec FaceFaceSpec GeoLemmas LinProofs BoxProofs SegIntProofs.
Import ListNotations.
Local Open Scope R_scope.

(** ** Filtering by what was found before *)

Lemma fold_added {T} (test : list T -> T -> bool) (l found : list T) :
  exists r, fold_left (fun acc a => if test acc a then acc ++ [a] else acc) l found = found ++ r /\ incl r l.
Proof.
  revert found. induction l as [|a l IH]; intros found; cbn.
  - exists []. rewrite app_nil_r. split; [reflexivity|intros x []].
  - destruct (test found a).
    + destruct (IH (found ++ [a])) as (r & Er & Hr). exists (a :: r). rewrite Er, <- app_assoc. split; [reflexivity|].
      intros x [<-|Hx]; [now left|right; auto].
    + destruct (IH found) as (r & Er & Hr). exists r. split; [exact Er|]. intros x Hx. right. auto.
Qed.
(** everything added passed the test on what was there before *)
Lemma fold_passed {T} (test : list T -> T -> bool) (l found : list T) l1 b l3 :
  fold_left (fun acc a => if test acc a then acc ++ [a] else acc) l found = l1 ++ b :: l3 ->
  (length found <= length l1)%nat -> test l1 b = true.
Proof.
  revert found. induction l as [|a l IH]; intros found; cbn.
  - intros -> Hl. rewrite app_length in Hl. cbn in Hl. exfalso. Lia.lia.
  - destruct (test found a) eqn:Et; [|apply IH].
    intros E Hl. destruct (PeanoNat.Nat.eq_dec (length found) (length l1)) as [Eq|Ne].
    + destruct (fold_added test l (found ++ [a])) as (r & Er & _). rewrite Er in E. rewrite <- app_assoc in E. cbn in E.
      assert (found = l1 /\ a = b) as [-> ->]; [|exact Et].
      clear -E Eq. revert l1 E Eq. induction found as [|x found IH]; intros [|y l1] E Eq; cbn in *; try discriminate.
      * injection E as -> _. auto.
      * injection E as -> E. destruct (IH l1 E) as [-> ->]; [Lia.lia|]. auto.
    + eapply IH; [exact E|]. rewrite app_length. cbn. Lia.lia.
Qed.
(** everything not added failed the test on a part of the result *)
Lemma fold_failed {T} (test : list T -> T -> bool) (l found : list T) a : In a l ->
  let r := fold_left (fun acc a => if test acc a then acc ++ [a] else acc) l found in
  In a r \/ exists l1 l2, r = l1 ++ l2 /\ test l1 a = false.
Proof.
  revert found. induction l as [|b l IH]; intros found; cbn; [tauto|]. intros [->|Ha]; [|now apply IH].
  destruct (test found a) eqn:Et.
  - left. destruct (fold_added test l (found ++ [a])) as (r & -> & _). rewrite !in_app_iff. cbn. tauto.
  - right. destruct (fold_added test l found) as (r & -> & _). eauto.
Qed.

Section Shapes.
Context {F E W : Type}.
Variable K : shape_kernel R F E W.

Lemma trace_spec f1 f2 eps e : In e (trace_edges K f1 f2 eps) <-> boundary_edge K f1 f2 eps e.
Proof.
  unfold trace_edges, boundary_edge. rewrite in_flat_map. split.
  - intros (g & Hg & He). apply in_flat_map in He as (w & Hw & He). eauto.
  - intros (g & w & Hg & Hw & He). exists g. split; [exact Hg|]. apply in_flat_map. eauto.
Qed.
Lemma is_on_spec p f eps : is_on K p f eps = true <-> sk_point_common K p f eps <> [].
Proof.
  unfold is_on. destruct (sk_point_common K p f eps); cbn; split; intros H; try discriminate; try reflexivity.
  now exfalso.
Qed.
Lemma candidates_spec f1 f2 eps p : In p (candidates K f1 f2 eps) <->
  boundary_vertex K f1 f2 eps p \/ boundary_vertex K f2 f1 eps p.
Proof.
  unfold candidates, boundary_vertex. rewrite in_app_iff, !filter_In, !in_flat_map, !is_on_spec. reflexivity.
Qed.
Lemma on_faces_spec e faces eps : on_faces K e faces eps = true <-> exists f, In f faces /\ share_edge K e f eps.
Proof.
  unfold on_faces, share_edge. rewrite existsb_exists. split; intros (f & Hf & He); exists f; (split; [exact Hf|]);
    destruct (sk_edge_common K e f eps); try discriminate; try reflexivity. now exfalso.
Qed.

(** the edges, as a fold over a test *)
Lemma found_fold f1 f2 eps : found_edges K f1 f2 eps =
  fold_left (fun acc e => if negb (on_faces K e (sk_common K f1 f2 eps) eps) && negb (existsb (fun e' => sk_same K e e') acc) then acc ++ [e] else acc)
    (trace_edges K f1 f2 eps) [].
Proof.
  unfold found_edges. set (t := fun acc e => if _ && _ then _ else _).
  assert (forall l acc, fold_left (add_edge K (sk_common K f1 f2 eps) eps) l acc = fold_left t l acc) as H; [|apply H].
  induction l as [|e l IH]; intros acc; cbn; [reflexivity|].
  rewrite <- IH. f_equal. unfold add_edge, t. destruct (on_faces _ _ _ _); cbn; [reflexivity|]. destruct (existsb _ _); reflexivity.
Qed.

Lemma found_in f1 f2 eps e : In e (found_edges K f1 f2 eps) ->
  boundary_edge K f1 f2 eps e /\ forall f, In f (sk_common K f1 f2 eps) -> ~ share_edge K e f eps.
Proof.
  intros He. split.
  - rewrite found_fold in He. match type of He with In _ (fold_left (fun acc a => if @?t acc a then _ else _) ?l ?f) => destruct (fold_added t l f) as (r & Er & Hr) end.
    cbn in Er. rewrite Er in He. apply trace_spec, Hr, He.
  - intros f Hf Hs. apply in_split in He as (l1 & l3 & Es). rewrite found_fold in Es.
    eapply (fold_passed (fun acc e => negb (on_faces K e (sk_common K f1 f2 eps) eps) && negb (existsb (fun e' => sk_same K e e') acc))) in Es; [|cbn; Lia.lia].
    apply andb_true_iff in Es as [Es _]. apply negb_true_iff in Es.
    assert (on_faces K e (sk_common K f1 f2 eps) eps = true) by (apply on_faces_spec; eauto). congruence.
Qed.
Lemma found_distinct f1 f2 eps : none_again (sk_same K) (found_edges K f1 f2 eps).
Proof.
  intros l1 a l2 b l3 Es. rewrite found_fold, app_comm_cons, app_assoc in Es.
  eapply (fold_passed (fun acc e => negb (on_faces K e (sk_common K f1 f2 eps) eps) && negb (existsb (fun e' => sk_same K e e') acc))) in Es; [|cbn; Lia.lia].
  apply andb_true_iff in Es as [_ Es]. apply negb_true_iff in Es. destruct (sk_same K b a) eqn:Eq; [|reflexivity].
  rewrite existsb_app in Es. cbn in Es. rewrite Eq in Es. rewrite orb_true_r in Es. discriminate.
Qed.
Lemma found_all f1 f2 eps e : boundary_edge K f1 f2 eps e ->
  (exists f, In f (sk_common K f1 f2 eps) /\ share_edge K e f eps) \/
  In e (found_edges K f1 f2 eps) \/ exists e', In e' (found_edges K f1 f2 eps) /\ sk_same K e e' = true.
Proof.
  intros He. apply trace_spec in He. rewrite found_fold.
  pose proof (fold_failed (fun acc e => negb (on_faces K e (sk_common K f1 f2 eps) eps) && negb (existsb (fun e' => sk_same K e e') acc)) _ [] e He) as [Hi|(l1 & l2 & Er & Ht)].
  - tauto.
  - cbn beta in Er. rewrite Er. apply andb_false_iff in Ht as [Ht|Ht]; apply negb_false_iff in Ht.
    + left. now apply on_faces_spec.
    + right. right. apply existsb_exists in Ht as (e' & Hi & Hs). exists e'. rewrite in_app_iff. tauto.
Qed.

(** ** The points *)

Lemma has_point_spec p c eps : 0 < eps -> (has_point p c eps = true <-> exists q, In q c /\ dist q p < eps).
Proof.
  intros He. unfold has_point. rewrite existsb_exists. split; intros (q & Hq & Hd); exists q; (split; [exact Hq|]);
    apply (pt_eq_dist q p eps He); exact Hd.
Qed.
Lemma new_in known cands eps p : 0 < eps -> In p (new_points known cands eps) ->
  In p cands /\ forall q, In q known -> eps <= dist q p.
Proof.
  intros He Hp. split.
  - unfold new_points in Hp. match type of Hp with In _ (fold_left (fun acc a => if @?t acc a then _ else _) ?l ?f) => destruct (fold_added t l f) as (r & Er & Hr) end.
    cbn in Er. rewrite Er in Hp. apply Hr, Hp.
  - intros q Hq. apply in_split in Hp as (l1 & l3 & Es). unfold new_points in Es.
    eapply (fold_passed (fun found p => negb (has_point p known eps) && negb (has_point p found eps))) in Es; [|cbn; Lia.lia].
    apply andb_true_iff in Es as [Es _]. apply negb_true_iff in Es.
    destruct (Rlt_or_le (dist q p) eps) as [L|L]; [|exact L].
    assert (has_point p known eps = true) by (apply has_point_spec; eauto). congruence.
Qed.
Lemma new_apart known cands eps : 0 < eps -> far_apart eps (new_points known cands eps).
Proof.
  intros He l1 p l2 q l3 Es. rewrite app_comm_cons, app_assoc in Es. unfold new_points in Es.
  eapply (fold_passed (fun found p => negb (has_point p known eps) && negb (has_point p found eps))) in Es; [|cbn; Lia.lia].
  apply andb_true_iff in Es as [_ Es]. apply negb_true_iff in Es.
  destruct (Rlt_or_le (dist p q) eps) as [L|L]; [|exact L].
  assert (has_point q (l1 ++ p :: l2) eps = true); [|congruence].
  apply has_point_spec; [exact He|]. exists p. rewrite in_app_iff. cbn. tauto.
Qed.
Lemma new_all known cands eps p : 0 < eps -> In p cands ->
  exists q, (In q known \/ In q (new_points known cands eps)) /\ dist q p < eps.
Proof.
  intros He Hp.
  pose proof (fold_failed (fun found p => negb (has_point p known eps) && negb (has_point p found eps)) _ [] p Hp) as [Hi|(l1 & l2 & Er & Ht)].
  - exists p. split; [right; exact Hi|]. rewrite dist_self. exact He.
  - cbn beta in Er. fold (new_points known cands eps) in Er. rewrite Er.
    apply andb_false_iff in Ht as [Ht|Ht]; apply negb_false_iff in Ht; apply has_point_spec in Ht as (q & Hq & Hd); try exact He.
    + eauto.
    + exists q. rewrite in_app_iff. tauto.
Qed.

(** ** The result *)

Definition the_points f1 f2 eps : list pt :=
  new_points (found_vertices K (sk_common K f1 f2 eps) (found_edges K f1 f2 eps)) (candidates K f1 f2 eps) eps.
Definition the_pieces f1 f2 eps : list (spiece R F E) :=
  map SpPoint (the_points f1 f2 eps) ++ map SpEdge (found_edges K f1 f2 eps) ++ map SpFace (sk_common K f1 f2 eps).
Lemma result_pieces f1 f2 eps : face_face_3d K f1 f2 eps = match the_pieces f1 f2 eps with [] => [SpEmpty] | _ => the_pieces f1 f2 eps end.
Proof. unfold face_face_3d. fold (the_points f1 f2 eps). fold (the_pieces f1 f2 eps). destruct (the_pieces f1 f2 eps); reflexivity. Qed.
Lemma result_in f1 f2 eps i : i <> SpEmpty -> (In i (face_face_3d K f1 f2 eps) <-> In i (the_pieces f1 f2 eps)).
Proof.
  intros Hi. rewrite result_pieces. destruct (the_pieces f1 f2 eps); [|reflexivity]. cbn. split; [intros [<-|[]]; now exfalso|tauto].
Qed.
Lemma in_pieces f1 f2 eps i : In i (the_pieces f1 f2 eps) <->
  match i with
  | SpEmpty => False
  | SpPoint p => In p (the_points f1 f2 eps)
  | SpEdge e => In e (found_edges K f1 f2 eps)
  | SpFace f => In f (sk_common K f1 f2 eps)
  end.
Proof.
  unfold the_pieces. rewrite !in_app_iff, !in_map_iff. destruct i as [|p|e|f].
  - split; [|tauto]. intros [(x & H & _)|[(x & H & _)|(x & H & _)]]; discriminate.
  - split; [|eauto]. intros [(x & [= ->] & H)|[(x & H & _)|(x & H & _)]]; try discriminate. exact H.
  - split; [|eauto 6]. intros [(x & H & _)|[(x & [= ->] & H)|(x & H & _)]]; try discriminate. exact H.
  - split; [|eauto 6]. intros [(x & H & _)|[(x & H & _)|(x & [= ->] & H)]]; try discriminate. exact H.
Qed.

Lemma face_face_kinds f1 f2 eps : empty_alone (int_face_face K f1 f2 eps) /\ empty_alone (face_face_3d K f1 f2 eps).
Proof.
  assert (empty_alone (face_face_3d K f1 f2 eps)) as H.
  { rewrite result_pieces. pose proof (in_pieces f1 f2 eps SpEmpty) as H. destruct (the_pieces f1 f2 eps); [now left|right].
    split; [discriminate|]. intros C. apply H in C. exact C. }
  split; [|exact H]. unfold int_face_face. destruct (negb _); [now left|exact H].
Qed.

(** points first, then edges, then faces *)
Lemma parts_of (ps : list pt) (es : list E) (fs : list F) : let r := map SpPoint ps ++ map SpEdge es ++ map SpFace fs in
  points_of r = ps /\ edges_of r = es /\ faces_of r = fs.
Proof.
  cbn. unfold points_of, edges_of, faces_of. rewrite !flat_map_app.
  assert (forall {S T U} (g : S -> U) (h : U -> list T) l, (forall x, h (g x) = []) -> flat_map h (map g l) = []) as Z.
  { intros S T U g h l Hx. induction l as [|x l IH]; cbn; [reflexivity|]. now rewrite Hx, IH. }
  assert (forall {S U} (g : S -> U) (h : U -> list S) l, (forall x, h (g x) = [x]) -> flat_map h (map g l) = l) as I.
  { intros S U g h l Hx. induction l as [|x l IH]; cbn; [reflexivity|]. now rewrite Hx, IH. }
  repeat split.
  - rewrite I, !Z by reflexivity. now rewrite !app_nil_r.
  - rewrite I, !Z by reflexivity. now rewrite !app_nil_r.
  - now rewrite I, !Z by reflexivity.
Qed.
Lemma result_parts f1 f2 eps : let r := face_face_3d K f1 f2 eps in
  points_of r = the_points f1 f2 eps /\ edges_of r = found_edges K f1 f2 eps /\ faces_of r = sk_common K f1 f2 eps /\
  (r = [SpEmpty] \/ r = map SpPoint (points_of r) ++ map SpEdge (edges_of r) ++ map SpFace (faces_of r)).
Proof.
  cbn zeta. rewrite result_pieces. destruct (parts_of (the_points f1 f2 eps) (found_edges K f1 f2 eps) (sk_common K f1 f2 eps)) as (P1 & P2 & P3).
  fold (the_pieces f1 f2 eps) in P1, P2, P3. destruct (the_pieces f1 f2 eps) eqn:Ep.
  - rewrite <- P1, <- P2, <- P3. cbn. auto.
  - rewrite <- Ep in *. rewrite P1, P2, P3. auto.
Qed.
Lemma face_face_ordered f1 f2 eps : let r := int_face_face K f1 f2 eps in
  r = [SpEmpty] \/ r = map SpPoint (points_of r) ++ map SpEdge (edges_of r) ++ map SpFace (faces_of r).
Proof. cbn zeta. unfold int_face_face. destruct (negb _); [now left|]. apply result_parts. Qed.
Lemma face_face_apart f1 f2 eps : 0 < eps -> far_apart eps (points_of (int_face_face K f1 f2 eps)).
Proof.
  intros He. unfold int_face_face. destruct (negb _); [intros [|] * Es; discriminate|].
  destruct (result_parts f1 f2 eps) as (-> & _). now apply new_apart.
Qed.
Lemma face_face_new f1 f2 eps p q : 0 < eps -> let r := int_face_face K f1 f2 eps in In p (points_of r) ->
  (exists e, In e (edges_of r) /\ In q (sk_edge_vertices K e)) \/ (exists f, In f (faces_of r) /\ In q (sk_face_vertices K f)) -> eps <= dist q p.
Proof.
  intros He. cbn zeta. unfold int_face_face. destruct (negb _); [cbn; tauto|].
  destruct (result_parts f1 f2 eps) as (-> & -> & -> & _). intros Hp Hq. apply (new_in _ _ _ _ He Hp).
  unfold found_vertices. rewrite in_app_iff, !in_flat_map. destruct Hq; auto.
Qed.
Lemma face_face_distinct f1 f2 eps : let r := int_face_face K f1 f2 eps in none_again (sk_same K) (edges_of r) /\
  forall e f, In e (edges_of r) -> In f (faces_of r) -> ~ share_edge K e f eps.
Proof.
  cbn zeta. unfold int_face_face. destruct (negb _).
  - split; [intros [|] * Es; discriminate|]. intros e f [].
  - destruct (result_parts f1 f2 eps) as (_ & -> & -> & _). split; [apply found_distinct|].
    intros e f He Hf. apply found_in in He as [_ He]. auto.
Qed.

(** what the boolean operations find is not lost *)
Lemma face_face_faces f1 f2 eps f : In (SpFace f) (face_face_3d K f1 f2 eps) <-> In f (sk_common K f1 f2 eps).
Proof. rewrite result_in by discriminate. apply (in_pieces f1 f2 eps (SpFace f)). Qed.
Lemma face_face_edges f1 f2 eps e : boundary_edge K f1 f2 eps e ->
  (exists f, In (SpFace f) (face_face_3d K f1 f2 eps) /\ share_edge K e f eps) \/
  exists e', In (SpEdge e') (face_face_3d K f1 f2 eps) /\ (e' = e \/ sk_same K e e' = true).
Proof.
  intros He. destruct (found_all _ _ _ _ He) as [(f & Hf & Hs)|[Hi|(e' & Hi & Hs)]].
  - left. exists f. split; [now apply face_face_faces|exact Hs].
  - right. exists e. split; [|auto]. apply result_in; [discriminate|]. now apply (in_pieces f1 f2 eps (SpEdge e)).
  - right. exists e'. split; [|auto]. apply result_in; [discriminate|]. now apply (in_pieces f1 f2 eps (SpEdge e')).
Qed.
Lemma face_face_vertices f1 f2 eps p : 0 < eps -> boundary_vertex K f1 f2 eps p \/ boundary_vertex K f2 f1 eps p ->
  exists i q, In i (face_face_3d K f1 f2 eps) /\ In q (spiece_vertices K i) /\ dist q p < eps.
Proof.
  intros He Hp. apply candidates_spec in Hp.
  destruct (new_all (found_vertices K (sk_common K f1 f2 eps) (found_edges K f1 f2 eps)) _ eps p He Hp) as (q & [Hq|Hq] & Hd).
  - unfold found_vertices in Hq. rewrite in_app_iff, !in_flat_map in Hq. destruct Hq as [(f & Hf & Hq)|(e & Hi & Hq)].
    + exists (SpFace f), q. split; [|auto]. now apply face_face_faces.
    + exists (SpEdge e), q. split; [|auto]. apply result_in; [discriminate|]. now apply (in_pieces f1 f2 eps (SpEdge e)).
  - exists (SpPoint q), q. split; [|cbn; auto]. apply result_in; [discriminate|]. now apply (in_pieces f1 f2 eps (SpPoint q)).
Qed.
(** and nothing else is returned *)
Lemma face_face_only f1 f2 eps i : 0 < eps -> In i (face_face_3d K f1 f2 eps) ->
  match i with
  | SpEmpty => True
  | SpPoint p => boundary_vertex K f1 f2 eps p \/ boundary_vertex K f2 f1 eps p
  | SpEdge e => boundary_edge K f1 f2 eps e
  | SpFace f => In f (sk_common K f1 f2 eps)
  end.
Proof.
  intros He Hi. destruct i as [|p|e|f]; [exact I|..]; apply result_in in Hi; try discriminate; apply in_pieces in Hi.
  - apply (new_in _ _ _ _ He) in Hi as [Hi _]. now apply candidates_spec.
  - now apply found_in in Hi.
  - exact Hi.
Qed.

(** ** The sets of points *)
Variable fpts : F -> pt -> Prop.
Variable epts : E -> pt -> Prop.

Lemma algo_within f1 f2 eps : 0 < eps -> finds_common K fpts epts f1 f2 eps ->
  pieces_within fpts epts (face_face_3d K f1 f2 eps) (fpts f1) (fpts f2).
Proof.
  intros He [C1 C2 C3 C4] i x Hi Hx. pose proof (face_face_only _ _ _ _ He Hi) as Ho.
  destruct i as [|p|e|f]; cbn in Hx; [easy|..].
  - subst x. destruct Ho; auto.
  - eauto.
  - eauto.
Qed.
Lemma algo_reach f1 f2 eps : 0 < eps -> finds_all K fpts epts f1 f2 eps ->
  pieces_reach fpts epts (face_face_3d K f1 f2 eps) eps (fpts f1) (fpts f2).
Proof.
  intros He [A1 A2 A3 A4 A5] x H1 H2.
  assert (forall p, boundary_vertex K f1 f2 eps p \/ boundary_vertex K f2 f1 eps p ->
    exists i y, In i (face_face_3d K f1 f2 eps) /\ spiece_pts fpts epts i y /\ dist p y < eps) as V.
  { intros p Hp. destruct (face_face_vertices _ _ _ _ He Hp) as (i & q & Hi & Hq & Hd). exists i, q.
    split; [exact Hi|]. split; [|rewrite dist_sym; exact Hd]. destruct i; cbn in *; eauto; try tauto. destruct Hq as [->|[]]. reflexivity. }
  destruct (A1 x H1 H2) as [(f & Hf & Hx)|[(e & Hb & Hx)|[Hv|Hv]]]; [..|apply V; auto|apply V; auto].
  - exists (SpFace f), x. rewrite dist_self. split; [now apply face_face_faces|auto].
  - destruct (face_face_edges _ _ _ _ Hb) as [(f & Hf & Hs)|(e' & Hi & Hs)].
    + exists (SpFace f), x. rewrite dist_self. split; [exact Hf|]. split; [|exact He]. cbn.
      apply face_face_faces in Hf. eauto.
    + exists (SpEdge e'), x. rewrite dist_self. split; [exact Hi|]. split; [|exact He]. cbn.
      destruct Hs as [->|Hs]; [exact Hx|]. now apply (A5 _ _ x Hs).
Qed.

Lemma face_face_within f1 f2 eps : 0 < eps -> finds_common K fpts epts f1 f2 eps ->
  pieces_within fpts epts (int_face_face K f1 f2 eps) (fpts f1) (fpts f2).
Proof.
  intros He Hc. unfold int_face_face. destruct (negb _); [|now apply algo_within].
  intros i x [<-|[]] [].
Qed.
Lemma face_face_reach f1 f2 eps : 0 < eps -> shape_boxed K fpts f1 -> shape_boxed K fpts f2 -> finds_all K fpts epts f1 f2 eps ->
  pieces_reach fpts epts (int_face_face K f1 f2 eps) eps (fpts f1) (fpts f2).
Proof.
  intros He B1 B2 Hc x H1 H2. unfold int_face_face. rewrite (do_intersect_shared _ _ _ x He (B1 x H1) (B2 x H2)).
  cbn [negb]. now apply algo_reach.
Qed.

(** geometries that are converted to shapes *)
Lemma geo_face_sets {G : Type} (shape : G -> F) (gpts : G -> pt -> Prop) g f eps : 0 < eps ->
  (forall x, fpts (shape g) x <-> gpts g x) -> shape_boxed K fpts (shape g) -> shape_boxed K fpts f ->
  finds_common K fpts epts (shape g) f eps -> finds_all K fpts epts (shape g) f eps ->
  pieces_within fpts epts (int_geo_face K shape g f eps) (gpts g) (fpts f) /\
  pieces_reach fpts epts (int_geo_face K shape g f eps) eps (gpts g) (fpts f).
Proof.
  intros He Hg B1 B2 Hc Ha. split.
  - intros i x Hi Hx. destruct (face_face_within _ _ _ He Hc i x Hi Hx). rewrite <- Hg. auto.
  - intros x H1 H2. apply (face_face_reach _ _ _ He B1 B2 Ha); [now apply Hg|exact H2].
Qed.
Lemma surf_face_sets {G : Type} (shape : G -> F) (gbox : G -> box R) (gpts : G -> pt -> Prop) g f eps : 0 < eps ->
  (forall x, fpts (shape g) x <-> gpts g x) -> (forall x, gpts g x -> in_box (gbox g) x) -> shape_boxed K fpts f ->
  finds_common K fpts epts (shape g) f eps -> finds_all K fpts epts (shape g) f eps ->
  pieces_within fpts epts (int_surf_face K shape gbox g f eps) (gpts g) (fpts f) /\
  pieces_reach fpts epts (int_surf_face K shape gbox g f eps) eps (gpts g) (fpts f).
Proof.
  intros He Hg B1 B2 Hc Ha. unfold int_surf_face. split.
  - destruct (negb _); [intros i x [<-|[]] []|]. intros i x Hi Hx. destruct (algo_within _ _ _ He Hc i x Hi Hx). rewrite <- Hg. auto.
  - intros x H1 H2. rewrite (do_intersect_shared _ _ _ x He (B1 x H1) (B2 x H2)). cbn [negb].
    apply (algo_reach _ _ _ He Ha); [now apply Hg|exact H2].
Qed.

(** shapes that touch in the interior of both *)
Lemma inner_touch f1 f2 eps : sk_common K f1 f2 eps = [] -> (forall e, ~ boundary_edge K f1 f2 eps e) ->
  (forall p, ~ boundary_vertex K f1 f2 eps p) -> (forall p, ~ boundary_vertex K f2 f1 eps p) ->
  int_face_face K f1 f2 eps = [SpEmpty].
Proof.
  intros H1 H2 H3 H4. unfold int_face_face. destruct (negb _); [reflexivity|]. rewrite result_pieces.
  pose proof (in_pieces f1 f2 eps) as H. destruct (the_pieces f1 f2 eps) as [|i l] eqn:Ep; [reflexivity|exfalso].
  specialize (H i). destruct H as [H _]. specialize (H (or_introl eq_refl)). destruct i as [|p|e|f].
  - exact H.
  - unfold the_points, new_points in H. match type of H with In _ (fold_left (fun acc a => if @?t acc a then _ else _) ?l ?f) => destruct (fold_added t l f) as (r & Er & Hr) end.
    cbn in Er. rewrite Er in H. apply Hr in H. apply candidates_spec in H as [H|H]; [now apply (H3 p)|now apply (H4 p)].
  - apply found_in in H as [H _]. now apply (H2 e).
  - rewrite H1 in H. exact H.
Qed.
End Shapes.
