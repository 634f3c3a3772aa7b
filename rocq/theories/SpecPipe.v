(** Specification vocabulary for building a model from text files with the command line
    programs. *)
From Coq Require Import ZArith Bool String List.
From Verif Require Import Outcome Float Payload Addr SpecOct SpecAvg Geom Store SpecStore Stream GridIngester SpecText SpecGrid.
Import ListNotations.
Open Scope Z_scope.

(** Storage that never fails. *)
Definition storage_works (E : etree) : Prop :=
  takes_new E /\ in_order E /\ accepts (et_store E) /\
  (forall d n, can_create E d n) /\ (forall d n, et_open E d n = true) /\
  (forall n, can_read E n) /\ (forall n, et_close E n = true) /\ (forall n, et_flush E n = true).

(** The file [fp] lists grid files with the points [grids]; the points with data give the
    records [recss]. *)
Definition model_files (F : numfmt) (L : libm) (T : texts) (fp : string) (grids : list (Z * list gridline))
    (recss : list (list (addr * payload))) : Prop :=
  exists text tail listed, T fp = Some (text ++ tail)%string /\ laid_out listed text /\ unterminated tail /\
    grids_read F L T listed grids /\ grids_recs L grids recss.

(** Octants below the root, with values, of which no two overlap. *)
Definition good_model (recs : list (addr * payload)) : Prop :=
  recs <> [] /\
  (forall a v, In (a, v) recs -> octant_ok a /\ 1 <= a_level a /\ proper_values v) /\
  ForallOrdPairs (fun x y => ~ covers (fst x) (fst y) /\ ~ covers (fst y) (fst x)) recs.
