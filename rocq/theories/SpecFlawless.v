(** Specification vocabulary: the same machine with storage that does not fail. *)
From Coq Require Import ZArith Bool String List.
From Verif Require Import Payload Addr AvgEngine Store VsGrader SpecFail.
Import ListNotations.

(** The library [E] when no call fails whose result the code looks at.  Stepping to the
    next record and closing a file for which the code ignores the result stay as they
    are: for these see C64. *)
Definition flawless (E : etree) : etree :=
  mkEtree (fun _ _ => true) (fun _ _ => true) (et_wreck E) (fun _ => true) (fun _ _ => true)
    (fun _ => true) (fun _ _ => true) (et_adv E) never_fails (fun _ _ => true) (et_before E)
    (fun _ => true) (et_flush E) (et_stale E) (et_partial E) (et_error E) (et_now E) (et_host E).
(** Every search and update of [G] fails or does what it does in [G']. *)
Definition fails_or_does {DB P} (G G' : gstore DB P) : Prop :=
  (forall db a, gs_search G db a = None \/ gs_search G db a = gs_search G' db a) /\
  (forall db a p, gs_update G db a p = None \/ gs_update G db a p = gs_update G' db a p).
