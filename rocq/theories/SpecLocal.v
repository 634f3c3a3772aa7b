(** When two collections of octants agree in a part of the domain (C80). *)
From Coq Require Import ZArith List.
From Verif Require Import Payload Addr SpecOct SpecQuery.

(** They have the same records inside octant [b]. *)
Definition agree_inside (m1 m2 : list (addr * payload)) (b : addr) : Prop :=
  forall a p, covers b a -> (In (a, p) m1 <-> In (a, p) m2).
(** They have the same records around octant [b]. *)
Definition agree_around (m1 m2 : list (addr * payload)) (b : addr) : Prop :=
  forall a p, covers a b -> (In (a, p) m1 <-> In (a, p) m2).
(** They have the same records at location [w]. *)
Definition agree_at (m1 m2 : list (addr * payload)) (w : place) : Prop :=
  forall a p, holds a w -> (In (a, p) m1 <-> In (a, p) m2).
