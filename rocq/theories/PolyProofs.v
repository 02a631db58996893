(** Proofs about triangles, polygons and quadrilaterals over the reals. *)

From Coq Require Import Reals Lra Lia Psatz List Bool.
From Verif Require Import Base NumModel VecModel LinModel PolyModel GeoSpec LinSpec PolySpec
  GeoLemmas LinProofs.
Import ListNotations.
Local Open Scope R_scope.

(** ** Lists *)
Lemma sum_cons x l : sum (x :: l) = x + sum l.
Proof. reflexivity. Qed.
Lemma sum_app l1 l2 : sum (l1 ++ l2) = sum l1 + sum l2.
Proof. induction l1 as [|x l1 IH]; cbn [app]; rewrite ?sum_cons; [cbn; lra|]. rewrite IH. lra. Qed.
Lemma sum_ext {X} (f g : X -> R) l : (forall x, In x l -> f x = g x) -> sum (map f l) = sum (map g l).
Proof.
  induction l as [|x l IH]; intros H; [reflexivity|]. cbn [map]. rewrite !sum_cons.
  rewrite (H x) by (left; reflexivity). rewrite IH; [reflexivity|]. intros y Hy. apply H. right. exact Hy.
Qed.
Lemma sum_le {X} (f g : X -> R) l : (forall x, In x l -> f x <= g x) -> sum (map f l) <= sum (map g l).
Proof.
  induction l as [|x l IH]; intros H; [apply Rle_refl|]. cbn [map]. rewrite !sum_cons.
  pose proof (H x (or_introl eq_refl)). pose proof (IH (fun y Hy => H y (or_intror Hy))). lra.
Qed.
Lemma sum_nonneg {X} (f : X -> R) l : (forall x, In x l -> 0 <= f x) -> 0 <= sum (map f l).
Proof.
  intros H. replace 0 with (sum (map (fun _ : X => 0) l)); [apply sum_le, H|].
  clear. induction l as [|x l IH]; [reflexivity|]. cbn [map]. rewrite sum_cons, IH. lra.
Qed.
Lemma sum_plus {X} (f g : X -> R) l : sum (map (fun x => f x + g x) l) = sum (map f l) + sum (map g l).
Proof. induction l as [|x l IH]; cbn [map]; rewrite ?sum_cons; [cbn; lra|]. rewrite IH. lra. Qed.
Lemma sum_scale {X} c (f : X -> R) l : sum (map (fun x => c * f x) l) = c * sum (map f l).
Proof. induction l as [|x l IH]; cbn [map]; rewrite ?sum_cons; [cbn; lra|]. rewrite IH. lra. Qed.
Lemma sum_zero_each {X} (f : X -> R) l :
  (forall x, In x l -> 0 <= f x) -> sum (map f l) = 0 -> forall x, In x l -> f x = 0.
Proof.
  induction l as [|y l IH]; intros Hn Hs x Hx; [contradiction|]. cbn [map] in Hs. rewrite sum_cons in Hs.
  assert (0 <= f y) by (apply Hn; left; reflexivity).
  assert (0 <= sum (map f l)) by (apply sum_nonneg; intros z Hz; apply Hn; right; exact Hz).
  destruct Hx as [->|Hx]; [lra|]. apply IH; [intros z Hz; apply Hn; right; exact Hz|lra|exact Hx].
Qed.
Lemma sum_each_le {X} (f : X -> R) l x :
  (forall x, In x l -> 0 <= f x) -> In x l -> f x <= sum (map f l).
Proof.
  induction l as [|y l IH]; intros Hn Hx; [contradiction|]. cbn [map]. rewrite sum_cons.
  assert (0 <= f y) by (apply Hn; left; reflexivity).
  assert (0 <= sum (map f l)) by (apply sum_nonneg; intros z Hz; apply Hn; right; exact Hz).
  destruct Hx as [->|Hx]; [lra|]. pose proof (IH (fun z Hz => Hn z (or_intror Hz)) Hx). lra.
Qed.

Lemma fold_sum {X} (f : X -> R) l x : fold_left (fun a i => a + f i) l x = x + sum (map f l).
Proof.
  revert x. induction l as [|y l IH]; intros x; cbn [fold_left map]; [cbn; lra|].
  rewrite IH, sum_cons. lra.
Qed.

Lemma nth_seq_cons {X} (a : X) l d (f : X -> X -> X * X) n :
  map (fun i => f (nth i (a :: l) d) (nth (S i) (a :: l) d)) (seq 1 n) =
  map (fun i => f (nth i l d) (nth (S i) l d)) (seq 0 n).
Proof. rewrite <- seq_shift, map_map. apply map_ext. intros i. reflexivity. Qed.

Lemma chain_seq (cs : list pt) d :
  map (fun i => (nth i cs d, nth (S i) cs d)) (seq 0 (length cs - 1)) = chain cs.
Proof.
  induction cs as [|a cs IH]; [reflexivity|]. destruct cs as [|b cs]; [reflexivity|].
  cbn [length] in *. replace (S (S (length cs)) - 1)%nat with (S (S (length cs) - 1)) by lia.
  cbn [seq map]. change (chain (a :: b :: cs)) with ((a, b) :: chain (b :: cs)). f_equal.
  rewrite <- IH. rewrite (nth_seq_cons a (b :: cs) d pair). reflexivity.
Qed.
Lemma chain_snoc (cs : list pt) c d : cs <> [] -> chain (cs ++ [c]) = chain cs ++ [(last cs d, c)].
Proof.
  intros H. induction cs as [|a cs IH]; [congruence|]. destruct cs as [|b cs]; [reflexivity|].
  change ((a :: b :: cs) ++ [c]) with (a :: b :: (cs ++ [c])).
  change (chain (a :: b :: cs ++ [c])) with ((a, b) :: chain ((b :: cs) ++ [c])).
  rewrite IH by congruence. reflexivity.
Qed.
Lemma edges_eq (cs : list pt) d : cs <> [] -> edges cs = chain cs ++ [(last cs d, hd d cs)].
Proof.
  intros H. unfold edges. destruct cs as [|a cs]; [congruence|]. cbn [firstn]. apply (chain_snoc _ a d H).
Qed.
Lemma nth_last (cs : list pt) d : nth (length cs - 1) cs d = last cs d.
Proof.
  induction cs as [|a cs IH]; [reflexivity|]. destruct cs as [|b cs]; [reflexivity|].
  cbn [length] in *. replace (S (S (length cs)) - 1)%nat with (S (S (length cs) - 1)) by lia.
  change (last (a :: b :: cs) d) with (last (b :: cs) d). rewrite <- IH. reflexivity.
Qed.
Lemma edges_seq (cs : list pt) d : cs <> [] ->
  edges cs = map (fun i => (nth i cs d, nth (Nat.modulo (S i) (length cs)) cs d)) (seq 0 (length cs)).
Proof.
  intros H. rewrite (edges_eq cs d H). assert (Hl : (1 <= length cs)%nat) by (destruct cs; [congruence|cbn; lia]).
  assert (Hs : seq 0 (length cs) = seq 0 (length cs - 1) ++ seq (length cs - 1) 1).
  { change (seq 0 (length cs - 1) ++ seq (length cs - 1) 1)
      with (seq 0 (length cs - 1) ++ seq (0 + (length cs - 1)) 1).
    rewrite <- seq_app. f_equal. lia. }
  rewrite Hs.
  rewrite map_app. f_equal.
  - rewrite <- (chain_seq cs d). apply map_ext_in. intros i Hi. apply in_seq in Hi.
    rewrite Nat.mod_small by lia. reflexivity.
  - cbn [seq map Nat.add]. replace (S (length cs - 1)) with (length cs) by lia.
    rewrite Nat.mod_same by lia. rewrite nth_last. destruct cs; [congruence|]. reflexivity.
Qed.
Lemma edges_in (cs : list pt) a b : In (a, b) (edges cs) -> In a cs /\ In b cs.
Proof.
  intros H. assert (Hn : cs <> []) by (intros ->; exact H).
  rewrite (edges_seq cs zero3 Hn) in H. apply in_map_iff in H as (i & He & Hi). apply in_seq in Hi.
  injection He as <- <-. split; apply nth_In; [lia|]. apply Nat.mod_upper_bound. lia.
Qed.
Lemma edges_length (cs : list pt) : length (edges cs) = length cs.
Proof.
  destruct cs as [|a cs]; [reflexivity|]. rewrite (edges_seq _ zero3) by congruence.
  rewrite map_length, seq_length. reflexivity.
Qed.

(** ** Orientation *)
Lemma orient_rot N a b c : orient N b c a = orient N a b c.
Proof. unfold orient. coords. ring. Qed.
Lemma orient_swap N a b c : orient N a c b = - orient N a b c.
Proof. unfold orient. coords. ring. Qed.
Lemma orient_aab N a b : orient N a a b = 0.
Proof. unfold orient. coords. ring. Qed.
Lemma orient_aba N a b : orient N a b a = 0.
Proof. unfold orient. coords. ring. Qed.
Lemma orient_abb N a b : orient N a b b = 0.
Proof. unfold orient. coords. ring. Qed.
Lemma orient_split N a b p : orient N a b p = det3 a b N + (det3 b p N - det3 a p N).
Proof. unfold orient. coords. ring. Qed.
Lemma orient_sum N a b c p : orient N a b c = orient N a b p + orient N b c p + orient N c a p.
Proof. unfold orient. coords. ring. Qed.
Lemma orient_affine N a b p q t :
  orient N a b (padd (pscale (1 - t) p) (pscale t q)) = (1 - t) * orient N a b p + t * orient N a b q.
Proof. unfold orient. coords. ring. Qed.

Lemma chain_telescope (g : pt -> R) (cs : list pt) d : cs <> [] ->
  sum (map (fun ab => g (snd ab) - g (fst ab)) (chain cs)) = g (last cs d) - g (hd d cs).
Proof.
  intros H. induction cs as [|a cs IH]; [congruence|]. destruct cs as [|b cs]; [cbn; lra|].
  change (chain (a :: b :: cs)) with ((a, b) :: chain (b :: cs)). cbn [map]. rewrite sum_cons, IH by congruence.
  cbn [fst snd hd]. change (last (a :: b :: cs) d) with (last (b :: cs) d). lra.
Qed.
Lemma edges_telescope (g : pt -> R) (cs : list pt) :
  sum (map (fun ab => g (snd ab) - g (fst ab)) (edges cs)) = 0.
Proof.
  destruct cs as [|a cs]; [reflexivity|]. unfold edges. cbn [firstn].
  rewrite (chain_telescope g ((a :: cs) ++ [a]) zero3) by (cbn; congruence).
  rewrite last_last. cbn. lra.
Qed.

(** the signed areas of the triangles with any point add up to the shoelace area *)
Lemma orient_total N cs p :
  sum (map (fun ab => orient N (fst ab) (snd ab) p) (edges cs)) = 2 * shoelace N cs.
Proof.
  unfold shoelace. rewrite (sum_ext _ (fun ab => det3 (fst ab) (snd ab) N
      + (det3 (snd ab) p N - det3 (fst ab) p N))) by (intros; apply orient_split).
  rewrite sum_plus, (edges_telescope (fun a => det3 a p N)). lra.
Qed.

(** ** Areas of triangles *)
Definition area3 (a b c : pt) : R := / 2 * norm (cross (psub b a) (psub c a)).
Lemma make_tri_area (a b c : pt) : t_area (make_tri a b c) = area3 a b c.
Proof. unfold make_tri, area3. cbn [t_area]. rn. rewrite vlen_norm, !vec_to_psub. lra. Qed.
Lemma orient_dot N a b c : orient N a b c = dot N (cross (psub b a) (psub c a)).
Proof. unfold orient. coords. ring. Qed.
Lemma cross_cross N u v : cross N (cross u v) = psub (pscale (dot N v) u) (pscale (dot N u) v).
Proof. coords. v3; ring. Qed.

Lemma area3_lower N a b c : unit3 N -> Rabs (orient N a b c) <= 2 * area3 a b c.
Proof.
  intros HN. rewrite orient_dot. unfold area3. pose proof (cauchy_norm N (cross (psub b a) (psub c a))) as H.
  rewrite (norm_unit N HN) in H. lra.
Qed.
Lemma area3_planar N a b c : unit3 N -> dot N (psub b a) = 0 -> dot N (psub c a) = 0 ->
  2 * area3 a b c = Rabs (orient N a b c).
Proof.
  intros HN Hb Hc. rewrite orient_dot. unfold area3. set (u := psub b a) in *. set (v := psub c a) in *.
  set (w := cross u v) in *.
  assert (Hw : dot w w = dot N w * dot N w).
  { pose proof (lagrange N w) as HL. unfold w in HL at 1 2. rewrite cross_cross, Hb, Hc in HL.
    replace (dot (psub (pscale 0 u) (pscale 0 v)) (psub (pscale 0 u) (pscale 0 v))) with 0 in HL
      by (clearbody u v; clear; coords; ring).
    unfold unit3 in HN. rewrite HN in HL. lra. }
  unfold norm. rewrite Hw. rewrite <- sqrt_Rsqr_abs. unfold Rsqr. lra.
Qed.
Lemma area3_nonneg a b c : 0 <= area3 a b c.
Proof. unfold area3. pose proof (norm_nonneg (cross (psub b a) (psub c a))). lra. Qed.
Lemma area3_swap a b c : area3 a c b = area3 a b c.
Proof.
  unfold area3, norm. f_equal. f_equal. coords. ring.
Qed.

(** ** The area test *)
(** the excess of the areas of the triangles with p over the area *)
Definition areas (cs : list pt) (p : pt) : R := sum (map (fun ab => area3 (fst ab) (snd ab) p) (edges cs)).

Lemma beyond_eq N ab p :
  beyond N ab p = / 2 * (Rabs (orient N (fst ab) (snd ab) p) - orient N (fst ab) (snd ab) p).
Proof.
  unfold beyond. set (x := orient N (fst ab) (snd ab) p). unfold Rmax, Rabs.
  destruct (Rle_dec 0 (- x)), (Rcase_abs x); lra.
Qed.
Lemma beyond_nonneg N ab p : 0 <= beyond N ab p.
Proof. unfold beyond. apply Rmax_l. Qed.
Lemma beyond_zero N ab p : beyond N ab p = 0 <-> 0 <= orient N (fst ab) (snd ab) p.
Proof. unfold beyond, Rmax. destruct (Rle_dec 0 (- orient N (fst ab) (snd ab) p)); split; intros; lra. Qed.
Lemma overhang_nonneg N cs p : 0 <= overhang N cs p.
Proof. apply sum_nonneg. intros ab _. apply beyond_nonneg. Qed.
Lemma overhang_zero N cs p :
  overhang N cs p = 0 <-> forall ab, In ab (edges cs) -> 0 <= orient N (fst ab) (snd ab) p.
Proof.
  split.
  - intros H ab Hab. apply beyond_zero. exact (sum_zero_each _ _ (fun x _ => beyond_nonneg N x p) H ab Hab).
  - intros H. unfold overhang. rewrite (sum_ext _ (fun _ => 0)); [|intros ab Hab; apply beyond_zero, H, Hab].
    clear. induction (edges cs) as [|x l IH]; [reflexivity|]. cbn [map]. rewrite sum_cons, IH. lra.
Qed.

Lemma areas_lower N cs p : unit3 N -> shoelace N cs + overhang N cs p <= areas cs p.
Proof.
  intros HN. unfold overhang. rewrite (sum_ext _ _ _ (fun ab _ => beyond_eq N ab p)).
  rewrite sum_scale. rewrite (sum_ext _ (fun ab => Rabs (orient N (fst ab) (snd ab) p)
     + (-1) * orient N (fst ab) (snd ab) p)) by (intros; lra).
  rewrite sum_plus, sum_scale, orient_total.
  assert (sum (map (fun ab => Rabs (orient N (fst ab) (snd ab) p)) (edges cs)) <= 2 * areas cs p).
  { unfold areas. rewrite <- sum_scale. apply sum_le. intros ab _. apply area3_lower, HN. }
  lra.
Qed.
Lemma areas_planar N cs p : unit3 N -> planar N cs -> (forall a, In a cs -> dot N (psub p a) = 0) ->
  areas cs p = shoelace N cs + overhang N cs p.
Proof.
  intros HN Hpl Hp. unfold overhang. rewrite (sum_ext _ _ _ (fun ab _ => beyond_eq N ab p)).
  rewrite sum_scale. rewrite (sum_ext _ (fun ab => Rabs (orient N (fst ab) (snd ab) p)
     + (-1) * orient N (fst ab) (snd ab) p)) by (intros; lra).
  rewrite sum_plus, sum_scale, orient_total.
  assert (sum (map (fun ab => Rabs (orient N (fst ab) (snd ab) p)) (edges cs)) = 2 * areas cs p) as ->.
  { unfold areas. rewrite <- sum_scale. apply sum_ext. intros [a b] Hab. cbn [fst snd].
    apply edges_in in Hab as [Ha Hb]. symmetry. apply area3_planar; auto. }
  lra.
Qed.

(** ** Convex polygons *)
Section Convex.
Variables (N : pt) (cs : list pt).
Hypothesis H : convex_ccw N cs.
Notation c i := (nth i cs zero3).

Lemma cc_unit : unit3 N. Proof. apply H. Qed.
Lemma cc_planar : planar N cs. Proof. apply H. Qed.
Lemma cc_len : (3 <= length cs)%nat. Proof. apply H. Qed.
Lemma cc_orient i j k : (i < j < k)%nat -> (k < length cs)%nat -> 0 <= orient N (c i) (c j) (c k).
Proof. apply H. Qed.
Lemma cc_first : 0 < orient N (c 0) (c 1) (c 2). Proof. apply H. Qed.
Lemma cc_nonempty : cs <> []. Proof. intros E. pose proof cc_len as HL. rewrite E in HL. cbn in HL. lia. Qed.
Lemma cc_in i : (i < length cs)%nat -> In (c i) cs. Proof. intros. apply nth_In. assumption. Qed.

(** every corner lies to the left of every edge *)
Lemma cc_left a b x : In (a, b) (edges cs) -> In x cs -> 0 <= orient N a b x.
Proof.
  intros He Hx. rewrite (edges_seq cs zero3 cc_nonempty) in He. apply in_map_iff in He as (i & E & Hi).
  apply in_seq in Hi. injection E as <- <-. apply (In_nth _ _ zero3) in Hx as (j & Hj & <-).
  pose proof cc_len as HL.
  destruct (Nat.eq_dec (S i) (length cs)) as [Hl|Hl].
  - rewrite Hl, Nat.mod_same by lia.
    destruct (Nat.eq_dec j 0) as [->|]; [rewrite orient_abb; lra|].
    destruct (Nat.eq_dec j i) as [->|]; [rewrite orient_aba; lra|].
    rewrite (orient_rot N (c j)), (orient_rot N (c 0)). apply cc_orient; lia.
  - rewrite Nat.mod_small by lia.
    destruct (Nat.lt_total j i) as [?|[->|?]].
    + rewrite (orient_rot N (c j)).
      apply cc_orient; lia.
    + rewrite orient_aba. lra.
    + destruct (Nat.eq_dec j (S i)) as [->|]; [rewrite orient_abb; lra|]. apply cc_orient; lia.
Qed.

Lemma hull_orient a b p : In (a, b) (edges cs) -> hull cs p -> 0 <= orient N a b p.
Proof.
  intros He Hp. induction Hp as [x Hx|x y z _ IHx _ IHy (t & Ht & ->)]; [apply cc_left; assumption|].
  rewrite orient_affine. nra.
Qed.
Lemma hull_plane a p : In a cs -> hull cs p -> dot N (psub p a) = 0.
Proof.
  intros Ha Hp. induction Hp as [x Hx|x y z _ IHx _ IHy (t & Ht & ->)]; [apply cc_planar; assumption|].
  replace (dot N (psub (padd (pscale (1 - t) x) (pscale t y)) a))
    with ((1 - t) * dot N (psub x a) + t * dot N (psub y a)) by (clear; coords; ring).
  rewrite IHx, IHy. ring.
Qed.

(** a triangle of corners *)
Lemma hull_comb3 a b d p l m k : In a cs -> In b cs -> In d cs -> 0 <= l -> 0 <= m -> 0 <= k -> l + m + k = 1 ->
  p = padd (pscale l a) (padd (pscale m b) (pscale k d)) -> hull cs p.
Proof.
  intros Ha Hb Hd Hl Hm Hk Hs ->. destruct (Req_dec (m + k) 0) as [E|E].
  - assert (m = 0) by lra. assert (k = 0) by lra. assert (l = 1) by lra. subst.
    replace (padd (pscale 1 a) (padd (pscale 0 b) (pscale 0 d))) with a; [constructor; assumption|].
    clear. coords. destruct a. v3; ring.
  - apply (hull_between cs a (padd (pscale (1 - k / (m + k)) b) (pscale (k / (m + k)) d))).
    + constructor. assumption.
    + apply (hull_between cs b d); [constructor; assumption|constructor; assumption|].
      exists (k / (m + k)). split; [|reflexivity]. split.
      * apply Rmult_le_pos; [lra|]. apply Rlt_le, Rinv_0_lt_compat. lra.
      * apply Rmult_le_reg_r with (m + k); [lra|]. unfold Rdiv. rewrite Rmult_assoc, Rinv_l by lra. lra.
    + exists (m + k). split; [lra|]. replace (1 - (m + k)) with l by lra.
      assert (E1 : k / (m + k) * (m + k) = k) by (field; assumption).
      set (r := k / (m + k)) in *. clearbody r. clear - E1.
      assert (E2 : (1 - r) * (m + k) = m) by lra.
      assert (E3 : forall x y z, l * x + (m * y + k * z) = l * x + (m + k) * ((1 - r) * y + r * z)).
      { intros x y z. transitivity (l * x + ((1 - r) * (m + k) * y + r * (m + k) * z)); [rewrite E2, E1; ring|ring]. }
      unfold padd, pscale. v3; apply E3.
Qed.

(** Cramer's rule in the plane *)
Lemma planar_cramer a b d p : dot N (psub b a) = 0 -> dot N (psub d a) = 0 -> dot N (psub p a) = 0 ->
  pscale (orient N a b d) (psub p a) =
  padd (pscale (orient N d a p) (psub b a)) (pscale (orient N a b p) (psub d a)).
Proof.
  intros Hb Hd Hp. pose proof cc_unit as HN.
  replace (orient N d a p) with (det3 (psub p a) (psub d a) N) by (unfold orient; coords; ring).
  unfold orient. set (u := psub b a) in *. set (v := psub d a) in *. set (w := psub p a) in *.
  assert (HC : pscale (det3 u v N) w =
     padd (padd (pscale (det3 w v N) u) (pscale (det3 u w N) v)) (pscale (det3 u v w) N)).
  { clearbody u v w. clear. coords. v3; ring. }
  assert (HZ : det3 u v w = 0).
  { assert (E : dot N (pscale (det3 u v N) w) =
       det3 w v N * dot N u + det3 u w N * dot N v + det3 u v w * dot N N).
    { rewrite HC. generalize (det3 w v N) (det3 u w N) (det3 u v w). clear. intros x y z. coords. ring. }
    replace (dot N (pscale (det3 u v N) w)) with (det3 u v N * dot N w) in E
      by (generalize (det3 u v N); clear; intros; coords; ring).
    rewrite Hb, Hd, Hp in E. unfold unit3 in HN. rewrite HN in E. lra. }
  rewrite HC, HZ. generalize (det3 w v N) (det3 u w N). clear. intros x y. coords. v3; ring.
Qed.

Lemma in_triangle a b d p : In a cs -> In b cs -> In d cs -> dot N (psub p a) = 0 ->
  0 < orient N a b d -> 0 <= orient N a b p -> 0 <= orient N b d p -> 0 <= orient N d a p -> hull cs p.
Proof.
  intros Ha Hb Hd Hp HD H1 H2 H3.
  pose proof (planar_cramer a b d p (cc_planar a b Ha Hb) (cc_planar a d Ha Hd) Hp) as HC.
  pose proof (orient_sum N a b d p) as HS. set (D := orient N a b d) in *.
  assert (Hi : 0 < / D) by (apply Rinv_0_lt_compat, HD).
  apply (hull_comb3 a b d p (/ D * orient N b d p) (/ D * orient N d a p) (/ D * orient N a b p)); auto.
  1-3: apply Rmult_le_pos; lra.
  - rewrite <- !Rmult_plus_distr_l. replace (orient N b d p + orient N d a p + orient N a b p) with D by lra.
    apply Rinv_l. lra.
  - assert (E1 : psub p a = padd (pscale (/ D * orient N d a p) (psub b a)) (pscale (/ D * orient N a b p) (psub d a))).
    { transitivity (pscale (/ D) (pscale D (psub p a))).
      - assert (/ D * D = 1) by (apply Rinv_l; lra). set (q := psub p a). clearbody q. clear - H0.
        unfold pscale. destruct q. v3; rewrite <- Rmult_assoc, H0; ring.
      - rewrite HC. generalize (orient N d a p) (orient N a b p) (/ D). clear. intros x y z. coords. v3; ring. }
    assert (E2 : / D * orient N b d p = 1 - / D * orient N d a p - / D * orient N a b p).
    { replace (orient N b d p) with (D - orient N d a p - orient N a b p) by lra.
      rewrite !Rmult_minus_distr_l. rewrite Rinv_l by lra. ring. }
    rewrite E2. revert E1. generalize (/ D * orient N d a p) (/ D * orient N a b p). clear. intros x y E.
    unfold psub, padd, pscale in *. cbn [vx vy vz] in *. injection E as Ex Ey Ez. v3; lra.
Qed.

Lemma sign_change (g : nat -> R) m : (1 <= m)%nat -> 0 <= g 1%nat -> g m <= 0 ->
  (exists i, (1 <= i < m)%nat /\ 0 <= g i /\ g (S i) <= 0 /\ 0 < g i - g (S i)) \/
  (forall i, (1 <= i <= m)%nat -> g i = 0).
Proof.
  intros Hm H1. induction m as [|m IH]; [lia|]. intros Hg.
  destruct (Nat.eq_dec m 0) as [->|Hm0].
  { right. intros i Hi. replace i with 1%nat by lia. lra. }
  destruct (Rlt_dec (g m) 0) as [Hl|Hl].
  - destruct (IH ltac:(lia) ltac:(lra)) as [(i & Hi & Hr)|Hz].
    + left. exists i. split; [lia|exact Hr].
    + specialize (Hz m ltac:(lia)). lra.
  - destruct (Rlt_dec 0 (g m - g (S m))) as [Hd|Hd].
    + left. exists m. repeat split; try lia; try lra.
    + assert (Ez : g m = 0) by lra. assert (Es : g (S m) = 0) by lra.
      destruct (IH ltac:(lia) ltac:(lra)) as [(i & Hi & Hr)|Hz].
      * left. exists i. split; [lia|exact Hr].
      * right. intros i Hi. destruct (Nat.eq_dec i (S m)) as [->|]; [exact Es|]. apply Hz. lia.
Qed.

Lemma cc_edge i : (S i < length cs)%nat -> In (c i, c (S i)) (edges cs).
Proof.
  intros Hi. rewrite (edges_seq cs zero3 cc_nonempty). apply in_map_iff. exists i. split.
  - rewrite Nat.mod_small by lia. reflexivity.
  - apply in_seq. lia.
Qed.
Lemma cc_edge_last : In (c (length cs - 1), c 0) (edges cs).
Proof.
  pose proof cc_len. rewrite (edges_seq cs zero3 cc_nonempty). apply in_map_iff. exists (length cs - 1)%nat. split.
  - replace (S (length cs - 1)) with (length cs) by lia. rewrite Nat.mod_same by lia. reflexivity.
  - apply in_seq. lia.
Qed.

Lemma half_planes_hull p : dot N (psub p (c 0)) = 0 ->
  (forall ab, In ab (edges cs) -> 0 <= orient N (fst ab) (snd ab) p) -> hull cs p.
Proof.
  intros Hp He. pose proof cc_len as HL.
  assert (H0 : In (c 0) cs) by (apply cc_in; lia).
  destruct (sign_change (fun i => orient N (c 0) (c i) p) (length cs - 1)) as [(i & Hi & G1 & G2 & G3)|Hz].
  - lia.
  - exact (He _ (cc_edge 0 ltac:(lia))).
  - pose proof (He _ cc_edge_last) as HE. cbn [fst snd] in HE.
    replace (orient N (c 0) (c (length cs - 1)) p) with (- orient N (c (length cs - 1)) (c 0) p); [lra|].
    unfold orient. coords. ring.
  - pose proof (He _ (cc_edge i ltac:(lia))) as HE. cbn [fst snd] in HE.
    assert (E : orient N (c (S i)) (c 0) p = - orient N (c 0) (c (S i)) p) by (unfold orient; coords; ring).
    pose proof (orient_sum N (c 0) (c i) (c (S i)) p) as HS. rewrite E in HS.
    apply (in_triangle (c 0) (c i) (c (S i)) p); try (apply cc_in; lia); try assumption; lra.
  - pose proof cc_first as HF.
    pose proof (planar_cramer (c 0) (c 1) (c 2) p
      (cc_planar _ _ H0 (cc_in 1 ltac:(lia))) (cc_planar _ _ H0 (cc_in 2 ltac:(lia))) Hp) as HC.
    rewrite (Hz 1%nat) in HC by lia.
    replace (orient N (c 2) (c 0) p) with (- orient N (c 0) (c 2) p) in HC by (unfold orient; coords; ring).
    rewrite (Hz 2%nat) in HC by lia.
    replace p with (c 0); [constructor; exact H0|].
    set (D := orient N (c 0) (c 1) (c 2)) in *. clearbody D. set (q := c 0) in *. clearbody q. clear - HC HF.
    unfold pscale, psub, padd in HC. cbn [vx vy vz] in HC. injection HC as Ex Ey Ez.
    apply v3_eq; nra.
Qed.

Lemma hull_iff p : hull cs p <-> dot N (psub p (c 0)) = 0 /\ overhang N cs p = 0.
Proof.
  pose proof cc_len. split.
  - intros Hh. split; [apply hull_plane; [apply cc_in; lia|exact Hh]|].
    apply overhang_zero. intros [a b] Hab. apply hull_orient; assumption.
  - intros [Hp Ho]. apply half_planes_hull; [exact Hp|]. apply overhang_zero, Ho.
Qed.

(** the fan triangulation *)
Definition fan_area : R := sum (map (fun ab => area3 (c 0) (fst ab) (snd ab)) (chain (tl cs))).
Lemma chain_tl_seq : chain (tl cs) = map (fun i => (c (S i), c (S (S i)))) (seq 0 (length cs - 2)).
Proof.
  pose proof cc_len. rewrite <- (chain_seq (tl cs) zero3). destruct cs as [|a l]; [cbn in *; lia|].
  cbn [tl length]. replace (S (length l) - 2)%nat with (length l - 1)%nat by lia. apply map_ext. reflexivity.
Qed.
Lemma planar0 p : dot N (psub p (c 0)) = 0 -> forall a, In a cs -> dot N (psub p a) = 0.
Proof.
  intros Hp a Ha. pose proof cc_len. pose proof (cc_planar (c 0) a (cc_in 0 ltac:(lia)) Ha) as E.
  replace (dot N (psub p a)) with (dot N (psub p (c 0)) - dot N (psub a (c 0))) by (clear; coords; ring). lra.
Qed.
Lemma fan_total : fan_area = shoelace N cs.
Proof.
  pose proof cc_len as HL. pose proof (orient_total N cs (c 0)) as HT.
  rewrite (edges_eq cs zero3 cc_nonempty) in HT. rewrite map_app, sum_app in HT.
  assert (Hh : hd zero3 cs = c 0) by (destruct cs; reflexivity). rewrite Hh in HT.
  cbn [map] in HT. rewrite sum_cons in HT. cbn [fst snd] in HT. rewrite orient_abb in HT.
  assert (Hch : chain cs = (c 0, c 1) :: chain (tl cs)).
  { destruct cs as [|a [|b l]]; [cbn in *; lia|cbn in *; lia|]. reflexivity. }
  rewrite Hch in HT. cbn [map] in HT. rewrite sum_cons in HT. cbn [fst snd] in HT. rewrite orient_aba in HT.
  change (sum []) with 0 in HT. unfold fan_area.
  rewrite (sum_ext _ (fun ab => / 2 * orient N (fst ab) (snd ab) (c 0))).
  - rewrite sum_scale. lra.
  - intros [x y] Hxy. cbn [fst snd]. rewrite chain_tl_seq in Hxy. apply in_map_iff in Hxy as (i & E & Hi).
    apply in_seq in Hi. injection E as <- <-.
    assert (G := area3_planar N (c 0) (c (S i)) (c (S (S i))) cc_unit
      (cc_planar _ _ (cc_in 0 ltac:(lia)) (cc_in (S i) ltac:(lia)))
      (cc_planar _ _ (cc_in 0 ltac:(lia)) (cc_in (S (S i)) ltac:(lia)))).
    assert (G2 := cc_orient 0 (S i) (S (S i)) ltac:(lia) ltac:(lia)). rewrite Rabs_pos_eq in G by exact G2.
    rewrite (orient_rot N (c 0)). lra.
Qed.
Lemma shoelace_pos : 0 < shoelace N cs.
Proof.
  rewrite <- fan_total. pose proof cc_len as HL. unfold fan_area. rewrite chain_tl_seq.
  replace (length cs - 2)%nat with (S (length cs - 3)) by lia. cbn [seq map]. rewrite sum_cons. cbn [fst snd].
  match goal with |- 0 < ?x + sum (map ?f ?l) =>
    assert (0 <= sum (map f l)) by (apply sum_nonneg; intros; apply area3_nonneg) end.
  assert (G := area3_planar N (c 0) (c 1) (c 2) cc_unit
      (cc_planar _ _ (cc_in 0 ltac:(lia)) (cc_in 1 ltac:(lia)))
      (cc_planar _ _ (cc_in 0 ltac:(lia)) (cc_in 2 ltac:(lia)))).
  pose proof cc_first as HF. rewrite Rabs_pos_eq in G by lra. lra.
Qed.

(** the area test of the code *)
Lemma area_test p eps : dot N (psub p (c 0)) = 0 ->
  (Rabs (shoelace N cs - areas cs p) < eps * eps <-> overhang N cs p < eps * eps).
Proof.
  intros Hp. rewrite (areas_planar N cs p cc_unit cc_planar (planar0 p Hp)).
  replace (shoelace N cs - (shoelace N cs + overhang N cs p)) with (- overhang N cs p) by ring.
  rewrite Rabs_Ropp, Rabs_pos_eq by apply overhang_nonneg. reflexivity.
Qed.
Lemma area_test_near p eps : Rabs (shoelace N cs - areas cs p) < eps * eps -> overhang N cs p < eps * eps.
Proof.
  intros Ht. pose proof (areas_lower N cs p cc_unit). apply Rabs_def2 in Ht. lra.
Qed.
End Convex.
