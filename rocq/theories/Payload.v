(** The record stored at each octant.
    Models libsrc/cencalvm/storage/Payload.h:31-56 (struct PayloadStruct) and
    the constants of libsrc/cencalvm/storage/Payload.cc:16-31. *)
From Coq Require Import ZArith String Bool.
From Verif Require Import Float.
Open Scope Z_scope.

(** Payload.h:31-56.  [float] members are binary32; the two int16_t members are
    integers (their range [-32768, 32767] is a hypothesis where it matters). *)
Record payload := mkPayload {
  p_vp : f32; p_vs : f32; p_density : f32; p_qp : f32; p_qs : f32;
  p_dfs : f32;             (* DepthFreeSurf *)
  p_block : Z;             (* FaultBlock *)
  p_zone : Z }.            (* Zone *)

(** Payload.cc:16-24 SCHEMA (the adjacent literals are concatenated) *)
Definition SCHEMA : string :=
  "float32_t Vp; float32_t Vs; float32_t Density; float32_t Qp; float32_t Qs; float32_t DepthFreeSurf; int16_t FaultBlock; int16_t Zone;"%string.
(** Payload.cc:26 *)
Definition NODATAVAL : f32 := nodataval32.
(** Payload.cc:27-28 *)
Definition NODATABLOCK : Z := 0.
Definition NODATAZONE : Z := 0.
(** Payload.cc:30-31 *)
Definition INTERIORBLOCK : Z := -999.
Definition INTERIORZONE : Z := -999.
(** sizeof(PayloadStruct): six 4-byte floats and two 2-byte integers, no
    padding. *)
Definition PAYLOADSIZE : Z := 28.

(** The six real-valued properties, for statements that range over them. *)
Inductive prop6 := PVp | PVs | PDensity | PQp | PQs | PDfs.
Definition get6 (f : prop6) (p : payload) : f32 :=
  match f with
  | PVp => p_vp p | PVs => p_vs p | PDensity => p_density p
  | PQp => p_qp p | PQs => p_qs p | PDfs => p_dfs p
  end.

Lemma payload_ext a b :
  (forall f, get6 f a = get6 f b) -> p_block a = p_block b -> p_zone a = p_zone b ->
  a = b.
Proof.
  intros H H1 H2; destruct a, b; cbn in *.
  pose proof (H PVp); pose proof (H PVs); pose proof (H PDensity).
  pose proof (H PQp); pose proof (H PQs); pose proof (H PDfs).
  cbn in *; congruence.
Qed.
