(** The whole loop of example 1 (/repo/appl/example1/example1.cc): the samplers of SampModel.v,
    the loop of AppModel.v and the constraints of EvalModel.v.  The adding to the builder and the
    output (example1.cc:124-162) are in BuilderModel.v and WriterModel.v. *)

From Coq Require Import List.
From stdpp Require Import prelude gmap.
From Verif Require Import Base ConstraintsModel AppModel.
From Verif Require Import NumModel VecModel LinModel RoundModel PolyModel DistModel IntModel AngModel CylIntModel EvalModel SampModel.

Section Ex1.
Context {A : Type} `{Num A} `{Trig A}.
(** The largest number, the functions of OpenCascade, std::sort for edges, the iteration order of
    the counter map. *)
Context (top : A) (O : ent_ops A) (srt : list (V3 A) → list (V3 A)) (ord : gmap N N → list (N * N)).

(** example1.cc:47-51, 56-60: the sampler for quadrilaterals; [d i] are the values drawn when it is
    called for the i-th time (98: quadSampler1(), quadSampler2()) *)
Definition quad_sampler (d : N → poly_draws A) (i : N) : outcome (ent A) :=
  obind (sample_quad srt (d i)) (λ q, Ok (EFace (FQuad q))).

(** example1.cc:78-122 with the constraints of 68-76 *)
Definition ex1 (d1 d2 : N → poly_draws A) (passes : nat) : alt_result (ent A) :=
  alt_run (ent_evaluate top O) ord ex1_plan (quad_sampler d1) (quad_sampler d2) passes.
End Ex1.
