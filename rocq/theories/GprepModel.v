(** What bliss_find_hits does to a channel's samples on a GPU before it estimates the noise: scaling, then sigma clipping.
    /repo/bliss/bliss_find_hits.cpp 118-125.  The flaggers between the two change only the mask, which is arbitrary here; without a response file nothing else changes the samples.  Definitions only. *)
From Verif Require Import GredKernels GvarModel.
From Verif Require Export GnormModel.
Local Open Scope Z_scope.

(** [mask] is the mask the flaggers before sigma clipping left; [o] is the samples and the mask that later steps see. *)
Definition gpu_prepare (cx cd : bool) (xa xb : Z -> Z) (lowest : f32) (junk : Z -> f32) (jz : Z -> Z) (data : arr f32) (mask : arr Z) (max_iter : Z) (low high : f32) (o : outcome (arr f32 * arr Z)) : Prop :=
  exists r o', gpu_normalize lowest junk data r /\ gpu_sigmaclip_lax cx cd xa xb junk jz r mask max_iter low high o' /\ o = (let! k := o' in Ok (r, k)).
