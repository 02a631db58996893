(** A concrete case for C117: an oblique hollow cylinder with the radii 3 and 7 and the height 5. *)

From Coq Require Import ZArith Reals Lra Lia Psatz Bool List.
From Flocq Require Import Core.Core.
From Coq Require Import Floats.
From Verif Require Import Base NumModel VecModel LinModel RoundModel PolyModel DistModel IntModel SampModel DomModel RngModel GeoSpec LinSpec DblSpec DomSpec RngSpec
  DblProofs DblExamples DomExamples RndDblProofs DkDblExamples TrigDblExamples LinDblSpec LinDblBase RndDblSpec TrigDblSpec PtDblSpec PtDblProofs FrDblProofs LinDblExamples RndDblExamples PtDblExamples RngExamples.
Local Open Scope R_scope.

Definition tube : hollow float := mkHollow (make_circle pt1 pd_n 3%float) (make_circle (vadd pt1 (vscale pd_n 5%float)) pd_n 3%float) 7%float 5%float.
Definition tube_n : V3 float := e_n (h_bot tube).
Definition tube_bot : ell float := let b := make_circle pt1 tube_n 7%float in make_ell pt1 (e_maj b) (e_min b) 7%float 7%float.
Definition tube_full : cyl float := mkCyl 5%float (make_top_disk tube_bot 5%float) tube_bot.
Definition tube_sampler `{Trig float} : psampler float := CylSampler tube_bot (9%float, 49%float) (0%float, (nlit 2 1 * npi)%num) (0%float, 5%float).
Lemma tube_made : make_hollow pt1 pd_n 3%float 7%float 5%float = Ok tube /\ hollow_full tube = Ok tube_full /\ sampler_hollow (H0 := rounded_trig) tube = Ok (tube_sampler (H := rounded_trig)).
Proof. split; [reflexivity|]. split; reflexivity. Qed.
Lemma tube_frame : frame (powerRZ 2 (-47)) (e_maj tube_bot) (e_min tube_bot) (e_n tube_bot).
Proof.
  destruct (circle_frame pt1 pd_n 3%float made_dir pd_n_plain) as [(_ & _ & D & _) _]. change (direction tube_n) in D.
  apply (proj1 (circle_frame pt1 tube_n 7%float D ltac:(destruct D as [(A & B & C) _]; split; [|split]; (apply plain_by; [assumption|vm_compute; reflexivity])))).
Qed.
Lemma tube_ok : accurate rounded_trig /\ moderate 14 /\ ellipse_upto 14 (c_bot tube_full) /\ frame (powerRZ 2 (-47)) (e_maj (c_bot tube_full)) (e_min (c_bot tube_full)) (e_n (c_bot tube_full)) /\
  number (hollow_inner tube) /\ number (h_outer tube) /\ powerRZ 2 (-400) <= val (hollow_inner tube) <= val (h_outer tube) /\ val (h_outer tube) <= 14 / 2 /\ number (h_h tube) /\ 0 <= val (h_h tube) <= 14.
Proof.
  destruct drum_ok as (HT & HM & (P & _ & _ & _ & R7 & _) & _ & (L & _) & N5 & B5). destruct v7 as [N7 V7], v3 as [N3 V3'].
  assert (powerRZ 2 (-400) <= 1) as P1. { rewrite !two_p. change 1%R with (bpow radix2 0). apply bpow_le; lia. }
  pose proof tube_frame as F. split; [exact HT|]. split; [exact HM|]. split.
  { destruct F as (D1 & D2 & D3 & _). split; [exact P|]. split; [exact D1|]. split; [exact D2|]. split; [exact D3|]. split; exact R7. }
  split; [exact F|]. change (hollow_inner tube) with 3%float. change (h_outer tube) with 7%float. rewrite V7, V3'.
  split; [exact N3|]. split; [exact N7|]. split; [lra|]. split; [lra|]. split; [exact N5|exact B5].
Qed.
