(** Concrete cases for C117: the numbers of minstd_rand0, and points drawn in a box. *)

From Coq Require Import ZArith Reals Lra Lia Psatz Bool List.
From Flocq Require Import Core.Core.
From Coq Require Import Floats.
From Verif Require Import Base NumModel VecModel LinModel RoundModel PolyModel DistModel IntModel SampModel DomModel RngModel GeoSpec LinSpec DblSpec DomSpec RngSpec
  DblProofs DblExamples DomExamples RndDblProofs DkDblExamples TrigDblExamples LinDblSpec LinDblBase RndDblSpec TrigDblSpec PtDblSpec LinDblExamples RndDblExamples PtDblExamples RngProofs RngDbl RngPlanes RngCyl.
Import ListNotations.
Local Open Scope Z_scope.

(** the numbers that libstdc++ documents: the first ones for the seed 1, and the ten thousandth *)
Lemma first_states : state 1 1 = 16807 /\ state 1 2 = 282475249 /\ state 1 3 = 1622650073 /\ state 1 (100 * 100) = 1043618065.
Proof. vm_compute. repeat split; reflexivity. Qed.
Lemma two_seeds : state 5 7 = state 2147483652 7 /\ state 0 3 = 1622650073 /\ state 5 7 <> state 6 7.
Proof. vm_compute. repeat split; try reflexivity. discriminate. Qed.
(** the first numbers of std::generate_canonical with this engine: 0.131538, 0.458650 and 0.218959 *)
Lemma first_draws : fst (draw (state 1 0)) = 0x1.0d63af043596fp-3%float /\ fst (draw (state 1 2)) = 0x1.d5a86155621c6p-2%float /\ fst (draw (state 1 4)) = 0x1.c06dac7f87edap-3%float.
Proof. vm_compute. repeat split; reflexivity. Qed.
(** two points of the unit cube for the seed 1, and the state after them *)
Lemma two_points : exists p q, points (box_point unit_box (H := rounded_trig)) 2 (seeded 1) = ([p; q], state 1 12) /\
  (vx p, vy p, vz p) = (0x1.0d63af043596fp-3, 0x1.d5a86155621c6p-2, 0x1.c06dac7f87edap-3)%float /\ p <> q.
Proof.
  eexists _, _. split; [vm_compute; reflexivity|]. split; [vm_compute; reflexivity|]. intros E. apply (f_equal (fun v => PrimFloat.ltb (vx v) 0.5%float && PrimFloat.ltb (vy v) 0.5%float)) in E. vm_compute in E. discriminate.
Qed.
Lemma unit_ok : box_number unit_box /\ ordered unit_box /\ within_box (powerRZ 2 1021) unit_box.
Proof.
  destruct zero_val as [Z0 W0]. destruct one_val as [Z1 W1]. pose proof p_1021. unfold unit_box, ordered, box_number, within_box, number3, within3. cbn [b_min b_max vx vy vz].
  rewrite ?W0, ?W1, ?Rabs_R0, ?Rabs_R1. repeat split; try assumption; lra.
Qed.
(** half way between two of the planes *)
Lemma between : ~ on_planes 0 (/ 1146) 0.
Proof.
  intros (k & _ & M). apply Rabs_le_inv in M. assert (0 < IZR k /\ IZR k < 1)%R as [Q1 Q2] by lra. apply lt_IZR in Q1. apply lt_IZR in Q2. lia.
Qed.
(** the first point for the seed 1 is on a plane *)
Lemma first_plane : (Rabs (-218 * digits 16807 282475249 + 573 * digits (state 1 3) (state 1 4) - 777 * digits (state 1 5) (state 1 6) - 64) <= / 500000)%R.
Proof.
  set (a := digits (state 1 3) (state 1 4)). set (b := digits (state 1 5) (state 1 6)). assert (a = digits 1622650073 984943658) as -> by (unfold a; f_equal; vm_compute; reflexivity).
  assert (b = digits 1144108930 470211272) as -> by (unfold b; f_equal; vm_compute; reflexivity). unfold digits. rewrite !minus_IZR. apply Rabs_le. split; lra.
Qed.
(** a cylinder of radius 7 and height 5 *)
Definition drum : cyl float := mkCyl 5%float (make_top_disk pd_circle 5%float) pd_circle.
Lemma drum_made : make_cyl_disk pd_circle 5%float = Ok drum.
Proof. reflexivity. Qed.
Lemma drum_ok : accurate rounded_trig /\ moderate 14 /\ ellipse_upto 14 (c_bot drum) /\ frame (powerRZ 2 (-47)) (e_maj (c_bot drum)) (e_min (c_bot drum)) (e_n (c_bot drum)) /\
  (powerRZ 2 (-400) <= val (cyl_radius drum) <= 14 / 2)%R /\ number (c_h drum) /\ (0 <= val (c_h drum) <= 14)%R.
Proof.
  destruct v5 as [N5 V5]. pose proof (proj1 pd_upto) as (A & B & C & D & E & F). destruct rd_radii as ((N7 & B7) & _).
  assert (val 7%float = 7)%R as V7 by apply v7.
  assert (powerRZ 2 (-400) <= 1 /\ 1024 <= powerRZ 2 400)%R as [P1 P2]. { rewrite !two_p. split; [change 1%R with (bpow radix2 0)|change 1024%R with (bpow radix2 10)]; apply bpow_le; lia. }
  split; [exact rounded_accurate|]. split; [unfold moderate; lra|]. split; [|split; [exact (proj1 pd_frames)|]].
  - destruct A as [A1 (A2 & A3 & A4)], E as [E1 E2], F as [F1 F2]. unfold drum. cbn [c_bot]. split; [split; [exact A1|split; [|split]]|]; try lra. split; [exact B|]. split; [exact C|]. split; [exact D|]. split; split; try assumption; lra.
  - change (cyl_radius drum) with 7%float. change (c_h drum) with 5%float. rewrite V7, V5. split; [lra|]. split; [exact N5|lra].
Qed.
