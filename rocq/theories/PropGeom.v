(** C02-C07 and C45: locations, octants and levels. *)
From Coq Require Import ZArith Bool QArith Qreals Reals Lra Lia List String.
From Flocq Require Import Core.
From Verif Require Import Outcome Float Addr SpecOct SpecGeom Geom GeomFacts GeomProof GeomLevel GeomRot TrigNum ToyLib.
Import ListNotations.
Open Scope R_scope.

(** The rotated model coordinates (p, q, r) that the code computes for a location
    ([coords], GeomProof.v) are its own double precision values; C45 relates them
    to the exact rotation of the projected point. *)

(** C02. Every location inside the root cube, at every level: the address has the
    requested level, is aligned and inside the root, and its octant contains the
    location exactly. *)
Theorem C02_octant_contains_location : forall L a lon lat elev p q r,
  (0 <= a_level a <= 31)%Z -> coords L lon lat elev p q r -> inside p -> inside q -> inside r ->
  exists b, lonLatElevToAddr L a lon lat elev = Val (0%Z, b) /\
    a_level b = a_level a /\ a_type b = a_type a /\ octant_ok b /\
    spans (a_x b) (a_level b) p /\ spans (a_y b) (a_level b) q /\ spans (a_z b) (a_level b) r.
Proof. exact geom_contains. Qed.
Print Assumptions C02_octant_contains_location.

(** C02, in terms of the map: with accurate cosine and sine, the octant contains the
    projected point rotated by the true azimuth, to within one micron. *)
Theorem C02_true_location : forall L a lon lat elev x y,
  trig_at (m_cos L) (m_sin L) azR -> (0 <= a_level a <= 31)%Z ->
  m_project L lon lat = Some (x, y) -> finite_double x -> finite_double y -> finite_double elev ->
  Rabs (value x) <= 5000000 -> Rabs (value y) <= 5000000 -> Rabs (value elev) <= 1000000 ->
  let P := map_to_p (cos azimuth) (sin azimuth) (value x) (value y) in
  let Q := map_to_q (cos azimuth) (sin azimuth) (value x) (value y) in
  let R := (value elev - 12800) * 4 + root in
  micron <= P < root - micron -> micron <= Q < root - micron -> micron <= R < root - micron ->
  exists b, lonLatElevToAddr L a lon lat elev = Val (0%Z, b) /\
    a_level b = a_level a /\ a_type b = a_type a /\ octant_ok b /\
    forall t v, In (t, v) [(a_x b, P); (a_y b, Q); (a_z b, R)] ->
      IZR t * tick - micron <= v < IZR (t + side (a_level b)) * tick + micron.
Proof.
  intros L a lon lat elev x y TR Hl EP Fx Fy Fe Bx By Be P Q R IP IQ IR.
  destruct (rot_true L x y TR Fx Fy Bx By) as [AP AQ]. pose proof (vert_true elev Fe Be) as AR. fold P in AP. fold Q in AQ. fold R in AR.
  assert (U : dev <= micron) by (unfold dev, micron; lra).
  assert (INS : forall w v, finite_double w /\ Rabs (value w - v) <= dev -> micron <= v < root - micron -> inside w).
  { intros w v (F & E) Hv. split; [exact F|]. apply Rabs_le_inv in E. lra. }
  destruct (geom_contains L a lon lat elev _ _ _ Hl
     (ex_intro _ x (ex_intro _ y (conj EP (conj eq_refl (conj eq_refl eq_refl)))))
     (INS _ _ AP IP) (INS _ _ AQ IQ) (INS _ _ AR IR)) as (b & E & El & Et & Eo & SX & SY & SZ).
  exists b. split; [exact E|]. split; [exact El|]. split; [exact Et|]. split; [exact Eo|].
  assert (K : forall t w v, spans t (a_level b) w -> finite_double w /\ Rabs (value w - v) <= dev ->
    IZR t * tick - micron <= v < IZR (t + side (a_level b)) * tick + micron).
  { intros t w v [S1 S2] (_ & Ea). apply Rabs_le_inv in Ea. lra. }
  intros t v [H|[H|[H|[]]]]; injection H as <- <-; eapply K; eassumption.
Qed.
Print Assumptions C02_true_location.

(** C03. A coordinate exactly on an upper face gets tick 2^31, the first tick
    outside the root; the other coordinates are placed as usual. *)
Theorem C03_upper_face : forall L a lon lat elev p q r,
  (0 <= a_level a <= 31)%Z -> coords L lon lat elev p q r ->
  (forall c, In c [p; q; r] -> inside c \/ on_upper_face c) ->
  exists b, lonLatElevToAddr L a lon lat elev = Val (0%Z, b) /\ a_level b = a_level a /\
    (forall c t, In (c, t) [(p, a_x b); (q, a_y b); (r, a_z b)] ->
       (on_upper_face c -> t = (2 ^ 31)%Z) /\
       (inside c -> (0 <= t < 2 ^ 31)%Z /\ spans t (a_level b) c)).
Proof. exact geom_upper_face. Qed.
Print Assumptions C03_upper_face.

(** C04. A coordinate below 0 or above the edge of the root (also infinite): return
    code 1 and the all-ones address. *)
Theorem C04_outside_rejected : forall L a lon lat elev p q r,
  (0 <= a_level a <= 31)%Z -> coords L lon lat elev p q r ->
  (exists c, In c [p; q; r] /\ outside c) ->
  lonLatElevToAddr L a lon lat elev =
    Val (1%Z, mkAddr (2 ^ 32 - 1) (2 ^ 32 - 1) (2 ^ 32 - 1) 0 (a_level a) (a_type a)).
Proof. exact geom_outside. Qed.
Print Assumptions C04_outside_rejected.

(** C04, in terms of the map: a point that is more than one micron outside of the root
    cube is rejected. *)
Theorem C04_true_location : forall L a lon lat elev x y,
  trig_at (m_cos L) (m_sin L) azR -> (0 <= a_level a <= 31)%Z ->
  m_project L lon lat = Some (x, y) -> finite_double x -> finite_double y -> finite_double elev ->
  Rabs (value x) <= 5000000 -> Rabs (value y) <= 5000000 -> Rabs (value elev) <= 1000000 ->
  let P := map_to_p (cos azimuth) (sin azimuth) (value x) (value y) in
  let Q := map_to_q (cos azimuth) (sin azimuth) (value x) (value y) in
  let R := (value elev - 12800) * 4 + root in
  (exists v, In v [P; Q; R] /\ (v < - micron \/ root + micron < v)) ->
  lonLatElevToAddr L a lon lat elev =
    Val (1%Z, mkAddr (2 ^ 32 - 1) (2 ^ 32 - 1) (2 ^ 32 - 1) 0 (a_level a) (a_type a)).
Proof.
  intros L a lon lat elev x y TR Hl EP Fx Fy Fe Bx By Be P Q R (v & Iv & Ov).
  destruct (rot_true L x y TR Fx Fy Bx By) as [AP AQ]. pose proof (vert_true elev Fe Be) as AR. fold P in AP. fold Q in AQ. fold R in AR.
  assert (U : dev <= micron) by (unfold dev, micron; lra).
  assert (OUT : forall w, finite_double w /\ Rabs (value w - v) <= dev -> outside w).
  { intros w ((V & F) & E). split; [exact V|]. right; right. split; [exact F|]. apply Rabs_le_inv in E. destruct Ov; [left|right]; lra. }
  apply (geom_outside L a lon lat elev _ _ _ Hl (ex_intro _ x (ex_intro _ y (conj EP (conj eq_refl (conj eq_refl eq_refl)))))).
  destruct Iv as [E|[E|[E|[]]]]; subst v; eexists; (split; [|apply OUT; eassumption]); cbn [In]; tauto.
Qed.
Print Assumptions C04_true_location.

(** C04. A NaN coordinate is not rejected: undefined behaviour, unless another
    coordinate is outside. *)
Theorem C04_nan_undefined : forall L a lon lat elev p q r,
  (0 <= a_level a <= 31)%Z -> coords L lon lat elev p q r ->
  (forall c, In c [p; q; r] -> c = S754_nan \/ inside c \/ on_upper_face c) ->
  (exists c, In c [p; q; r] /\ c = S754_nan) ->
  exists why, lonLatElevToAddr L a lon lat elev = UB why.
Proof. exact geom_nan. Qed.
Print Assumptions C04_nan_undefined.

(** C04. A level outside 0..31 trips the assertion. *)
Theorem C04_bad_level : forall L a lon lat elev,
  ~ (0 <= a_level a <= 31)%Z -> lonLatElevToAddr L a lon lat elev = Abort.
Proof. exact geom_bad_level. Qed.
Print Assumptions C04_bad_level.

(** C05. The address at a coarse level is the ancestor of the address at any finer
    level, on the upper faces too. *)
Theorem C05_nested_levels : forall L a b lon lat elev p q r,
  (0 <= a_level a < a_level b)%Z -> (a_level b <= 31)%Z -> coords L lon lat elev p q r ->
  (forall c, In c [p; q; r] -> inside c \/ on_upper_face c) ->
  exists ca fb anc, lonLatElevToAddr L a lon lat elev = Val (0%Z, ca) /\
    lonLatElevToAddr L b lon lat elev = Val (0%Z, fb) /\
    findAncestor fb (a_level a) = Val anc /\ same_octant ca anc.
Proof. exact geom_nested. Qed.
Print Assumptions C05_nested_levels.

(** C06. The reported elevation of the centroid is exact, and converting it back at
    the same level gives the same vertical tick; the horizontal ticks are the same
    as soon as the horizontal coordinates fall in the octant. *)
Theorem C06_centroid_elevation : forall L a lon lat elev,
  octant_ok a -> addrToLonLatElev L a = Val (lon, lat, elev) ->
  let r := centre_of (a_z a) (a_level a) in
  finite_double elev /\ value elev = (r - root) / 4 + 12800 /\
  forall b lon' lat' p q, a_level b = a_level a -> coords L lon' lat' elev p q (vert_r elev) ->
    inside p -> inside q ->
    exists c, lonLatElevToAddr L b lon' lat' elev = Val (0%Z, c) /\ a_z c = a_z a /\ a_level c = a_level a /\
      (spans (a_x a) (a_level a) p -> a_x c = a_x a) /\ (spans (a_y a) (a_level a) q -> a_y c = a_y a).
Proof. exact geom_centroid. Qed.
Print Assumptions C06_centroid_elevation.
(** The centroid of an octant of a level that does not exist is refused. *)
Theorem C06_bad_level : forall L a, ~ (0 <= a_level a <= 31)%Z -> addrToLonLatElev L a = Abort.
Proof.
  intros L a H. unfold addrToLonLatElev, assert_.
  destruct (Z.leb_spec 0 (a_level a)), (Z.ltb_spec (a_level a) 32); cbn [andb bind]; try reflexivity. exfalso. lia.
Qed.
Print Assumptions C06_bad_level.
Example C06_bad_level_example : addrToLonLatElev toy (mkAddr 0 0 0 0 32 Leaf) = Abort.
Proof. apply C06_bad_level. cbn [a_level]. lia. Qed.

(** C07. The level of the edge length of level k is k, for any logarithm with
    relative error up to 1/256 at the two points where it is evaluated. *)
Theorem C07_level_of_edge : forall L eps k,
  0 <= eps <= / 256 -> (0 <= k <= 31)%Z ->
  log_within eps (i2f64 (2 ^ k)) (m_log L (i2f64 (2 ^ k))) ->
  log_within eps (i2f64 2) (m_log L (i2f64 2)) ->
  exists e, edgeLen k = Val e /\ finite_double e /\ value e = root / 2 ^ Z.to_nat k /\ level L e = Val k.
Proof. exact level_edge. Qed.
Print Assumptions C07_level_of_edge.

(** C07. A resolution strictly nearest (on a log scale, up to the slack
    64 eps + 1e-9) to the edge of level k gets level k; resolutions up to 2^(3/2)
    times the root edge get level 0 because the conversion truncates. *)
Theorem C07_nearest_level : forall L eps res k,
  0 <= eps <= / 256 -> (0 <= k <= 31)%Z -> finite_double res -> 0 < value res ->
  log_within eps (div64 ROOTLEN res) (m_log L (div64 ROOTLEN res)) ->
  log_within eps (i2f64 2) (m_log L (i2f64 2)) ->
  (if Z.eqb k 0 then - (3 / 2) else IZR k - / 2) + slack eps <= log2_ratio res <= IZR k + / 2 - slack eps ->
  level L res = Val k.
Proof. exact level_correct. Qed.
Print Assumptions C07_nearest_level.

(** C07. A zero resolution: the conversion of infinity to int is undefined. *)
Theorem C07_zero_resolution_undefined : forall L,
  m_log L (S754_infinity false) = S754_infinity false -> finite_double (m_log L (i2f64 2)) ->
  exists why, level L f_zero = UB why.
Proof. exact level_zero. Qed.
Print Assumptions C07_zero_resolution_undefined.

(** C45. With accurate cosine and sine, the computed model coordinates are those of the
    rotation by the true azimuth about the corner of the root cube, to within 2e-7 m. *)
Theorem C45_rotation : forall L x y,
  trig_at (m_cos L) (m_sin L) azR ->
  finite_double x /\ Rabs (value x) <= 5000000 -> finite_double y /\ Rabs (value y) <= 5000000 ->
  finite_double (rot_p L x y) /\ finite_double (rot_q L x y) /\
  Rabs (value (rot_p L x y) - map_to_p (cos azimuth) (sin azimuth) (value x) (value y)) <= 2 / 10000000 /\
  Rabs (value (rot_q L x y) - map_to_q (cos azimuth) (sin azimuth) (value x) (value y)) <= 2 / 10000000.
Proof.
  intros L x y TR [Fx Bx] [Fy By]. destruct (rot_true L x y TR Fx Fy Bx By) as [[F1 E1] [F2 E2]].
  split; [exact F1|]. split; [exact F2|]. split; [exact E1 | exact E2].
Qed.
Print Assumptions C45_rotation.

(** C45. Octant to location to octant is the identity, at every level, for any
    projection that undoes its inverse up to 5e-5 m. *)
Theorem C45_round_trip : forall L, unit_vector (m_cos L azR) (m_sin L azR) ->
  forall a b lon lat elev,
  projection_inverts (m_project L) (m_invproject L) -> octant_ok a -> a_level b = a_level a ->
  addrToLonLatElev L a = Val (lon, lat, elev) ->
  lonLatElevToAddr L b lon lat elev =
    Val (0%Z, mkAddr (a_x a) (a_y a) (a_z a) 0 (a_level a) (a_type b)).
Proof. exact round_trip. Qed.
Print Assumptions C45_round_trip.

(** ** The hypotheses are met *)
Definition elev0 : f64 := dec64 (-12345) 1.
Definition lev (l : Z) : addr := mkAddr 0 0 0 0 l Leaf.

Lemma finite_value (x : f64) m e : x = S754_finite false m e -> SpecFloat.valid_binary prec64 emax64 x = true ->
  (e <= 0)%Z -> finite_double x /\ value x = IZR (Zpos m) / IZR (2 ^ (- e)).
Proof.
  intros -> V He. split; [split; [exact V | reflexivity]|].
  unfold value, BinarySingleNaN.SF2R, Defs.F2R. cbn [Defs.Fnum Defs.Fexp].
  replace e with (- - e)%Z at 1 by lia. rewrite Raux.bpow_opp, bpow_Z by lia. reflexivity.
Qed.

Ltac inside_tac :=
  match goal with |- inside ?t =>
    let v := eval vm_compute in t in
    match v with S754_finite false ?m ?e =>
      destruct (finite_value t m e) as [F E]; [vm_compute; reflexivity | vm_compute; reflexivity | lia|];
      split; [exact F|]; rewrite E; unfold root;
      let d := eval vm_compute in (2 ^ (- e))%Z in change (2 ^ (- e))%Z with d; lra
    end
  end.

Lemma toy_in : exists p q r, coords toy toy_x toy_y elev0 p q r /\ inside p /\ inside q /\ inside r.
Proof.
  exists (rot_p toy toy_x toy_y), (rot_q toy toy_x toy_y), (vert_r elev0).
  split; [exists toy_x, toy_y; split; [vm_compute; reflexivity | auto]|].
  split; [|split]; inside_tac.
Qed.

Example C02_example : exists b, lonLatElevToAddr toy (lev 12) toy_x toy_y elev0 = Val (0%Z, b) /\ octant_ok b.
Proof.
  destruct toy_in as (p & q & r & C & I1 & I2 & I3).
  destruct (C02_octant_contains_location toy (lev 12) _ _ _ p q r ltac:(cbn; lia) C I1 I2 I3)
    as (b & E & _ & _ & O & _). exists b. split; assumption.
Qed.
Example C02_example_value :
  lonLatElevToAddr toy (lev 12) toy_x toy_y elev0 =
  Val (0%Z, mkAddr (2 ^ 19 * 1250) (2 ^ 19 * 1499) (2 ^ 19 * 3955) 0 12 Leaf).
Proof. vm_compute. reflexivity. Qed.

(** The cosine and sine of the toy library are accurate. *)
Example toy_trig : trig_at (m_cos toy) (m_sin toy) azR.
Proof.
  destruct (finite_value (m_cos toy azR) 5340232702778215 (-53) eq_refl eq_refl ltac:(lia)) as [F1 E1].
  destruct (finite_value (m_sin toy azR) 7253382183146340 (-53) eq_refl eq_refl ltac:(lia)) as [F2 E2].
  change (2 ^ (- -53))%Z with 9007199254740992%Z in E1, E2.
  assert (V : value azR = Q2R (8432176989851143 # 9007199254740992)) by (rewrite azR_value, Q2R_eq; reflexivity).
  assert (B : 0 <= Q2R (8432176989851143 # 9007199254740992) <= 1) by (rewrite Q2R_eq; lra).
  pose proof (cos_in_R (8432176989851143 # 9007199254740992) (5340232702778214 # 9007199254740992) (5340232702778216 # 9007199254740992) ltac:(vm_compute; reflexivity) B) as C.
  pose proof (sin_in_R (8432176989851143 # 9007199254740992) (7253382183146339 # 9007199254740992) (7253382183146341 # 9007199254740992) ltac:(vm_compute; reflexivity) B) as S.
  rewrite <- V in C, S. rewrite !Q2R_eq in C, S.
  assert (P : / 2 ^ 53 = / 9007199254740992) by (f_equal; cbn; lra).
  split; [exact F1|]. split; [exact F2|]. rewrite E1, E2, P. 
  split; [|split; [|split]]; apply Rabs_le; lra.
Qed.

Lemma toy_unit : unit_vector (m_cos toy azR) (m_sin toy azR).
Proof.
  destruct (finite_value (m_cos toy azR) 5340232702778215 (-53) eq_refl eq_refl ltac:(lia)) as [F1 E1].
  destruct (finite_value (m_sin toy azR) 7253382183146340 (-53) eq_refl eq_refl ltac:(lia)) as [F2 E2].
  change (2 ^ (- -53))%Z with 9007199254740992%Z in *.
  split; [exact F1|]. split; [exact F2|]. rewrite E1, E2.
  split; [apply Rabs_le; lra|]. split; [apply Rabs_le; lra|].
  apply Rabs_le. cbn [pow]. lra.
Qed.

(** The top face: elevation 12800 m. *)
Example C03_example : on_upper_face (vert_r (i2f64 12800)) /\
  lonLatElevToAddr toy (lev 7) toy_x toy_y (i2f64 12800) =
  Val (0%Z, mkAddr (2 ^ 24 * 39) (2 ^ 24 * 46) (2 ^ 31) 0 7 Leaf).
Proof.
  split; [|vm_compute; reflexivity].
  destruct (finite_value (vert_r (i2f64 12800)) 7036874417766400 (-32)) as [F E];
    [vm_compute; reflexivity | vm_compute; reflexivity | lia |].
  split; [exact F|]. rewrite E. change (2 ^ (- -32))%Z with 4294967296%Z. unfold root. lra.
Qed.

Example C04_example_above :
  lonLatElevToAddr toy (lev 7) toy_x toy_y (i2f64 12801) =
  Val (1%Z, mkAddr (2 ^ 32 - 1) (2 ^ 32 - 1) (2 ^ 32 - 1) 0 7 Leaf).
Proof. vm_compute. reflexivity. Qed.
(** The same point, 1 m above the top, by its true coordinates. *)
Example C04_example_true : trig_at (m_cos toy) (m_sin toy) azR /\ m_project toy toy_x toy_y = Some (toy_x, toy_y) /\
  finite_double (i2f64 12801) /\ root + micron < (value (i2f64 12801) - 12800) * 4 + root.
Proof.
  split; [exact toy_trig|]. split; [vm_compute; reflexivity|].
  destruct (finite_value (i2f64 12801) 7037424173580288 (-39)) as [F E]; [vm_compute; reflexivity | vm_compute; reflexivity | lia |].
  split; [exact F|]. rewrite E. change (2 ^ (- -39))%Z with 549755813888%Z. unfold micron. lra.
Qed.
Example C04_example_infinite : outside (vert_r (S754_infinity true)) /\
  lonLatElevToAddr toy (lev 7) toy_x toy_y (S754_infinity true) =
  Val (1%Z, mkAddr (2 ^ 32 - 1) (2 ^ 32 - 1) (2 ^ 32 - 1) 0 7 Leaf).
Proof. split; [split; [reflexivity | left; reflexivity] | vm_compute; reflexivity]. Qed.
Example C04_example_nan : exists why, lonLatElevToAddr toy (lev 7) toy_x toy_y S754_nan = UB why.
Proof. vm_compute. eexists. reflexivity. Qed.

Example C05_example : exists ca fb anc,
  lonLatElevToAddr toy (lev 3) toy_x toy_y elev0 = Val (0%Z, ca) /\
  lonLatElevToAddr toy (lev 20) toy_x toy_y elev0 = Val (0%Z, fb) /\
  findAncestor fb 3 = Val anc /\ same_octant ca anc.
Proof.
  destruct toy_in as (p & q & r & C & I1 & I2 & I3).
  apply (C05_nested_levels toy (lev 3) (lev 20) _ _ _ p q r); [cbn [lev a_level]; lia | cbn [lev a_level]; lia | exact C |].
  intros c [<-|[<-|[<-|[]]]]; left; assumption.
Qed.

(** Level 12 has an edge of 400 m. *)
Lemma toy_log_pow k m e : (0 <= k <= 31)%Z -> toy_log (i2f64 (2 ^ k)) = S754_finite false m e ->
  SpecFloat.valid_binary prec64 emax64 (S754_finite false m e) = true -> (e <= 0)%Z ->
  Rabs (IZR (Zpos m) / IZR (2 ^ (- e)) - IZR k * ln 2) <= / 256 * (IZR k * (692 / 1000)) ->
  log_within (/ 256) (i2f64 (2 ^ k)) (m_log toy (i2f64 (2 ^ k))).
Proof.
  intros Hk E V He B. change (m_log toy) with toy_log. rewrite E.
  destruct (finite_value _ m e eq_refl V He) as [F Ev]. split; [exact F|]. rewrite Ev.
  assert (Ex : value (i2f64 (2 ^ k)) = 2 ^ Z.to_nat k).
  { destruct (repr_pow k ltac:(lia)) as (_ & _ & Er). unfold value. rewrite Er, bpow_Z by lia.
    rewrite pow_IZR. f_equal. rewrite Z2Nat.id by lia. reflexivity. }
  rewrite Ex, ln_pow', INR_IZR_INZ, Z2Nat.id by (lra || lia).
  eapply Rle_trans; [exact B|]. pose proof ln2_bounds. apply Rmult_le_compat_l; [lra|].
  assert (0 <= IZR k) by (apply IZR_le; lia). rewrite Rabs_right by nra. nra.
Qed.
Example C07_example : exists e, edgeLen 12 = Val e /\ value e = 400 /\ level toy e = Val 12%Z.
Proof.
  assert (H12 : log_within (/ 256) (i2f64 (2 ^ 12)) (m_log toy (i2f64 (2 ^ 12)))).
  { apply (toy_log_pow 12 4682486076124019 (-49)); [lia | vm_compute; reflexivity.. | lia |].
    change (2 ^ (- -49))%Z with 562949953421312%Z. pose proof ln2_bounds. apply Rabs_le. lra. }
  assert (H1 : log_within (/ 256) (i2f64 2) (m_log toy (i2f64 2))).
  { apply (toy_log_pow 1 6243314768165359 (-53)); [lia | vm_compute; reflexivity.. | lia |].
    change (2 ^ (- -53))%Z with 9007199254740992%Z. pose proof ln2_bounds. apply Rabs_le. lra. }
  destruct (C07_level_of_edge toy (/ 256) 12 ltac:(lra) ltac:(lia) H12 H1) as (e & E1 & _ & E2 & E3).
  exists e. split; [exact E1|]. split; [|exact E3]. rewrite E2. unfold root.
  change (Z.to_nat 12) with 12%nat. cbn [pow]. lra.
Qed.

(** Edges of levels 12 and 13. *)
Example C07_example_value : level toy (i2f64 400) = Val 12%Z /\ level toy (i2f64 200) = Val 13%Z.
Proof. vm_compute. auto. Qed.

Example C45_example : exists lon lat elev,
  addrToLonLatElev toy (mkAddr (2 ^ 19 * 1250) (2 ^ 19 * 1499) (2 ^ 19 * 3955) 0 12 Leaf) = Val (lon, lat, elev) /\
  lonLatElevToAddr toy (lev 12) lon lat elev =
  Val (0%Z, mkAddr (2 ^ 19 * 1250) (2 ^ 19 * 1499) (2 ^ 19 * 3955) 0 12 Leaf).
Proof. eexists. eexists. eexists. split; [vm_compute; reflexivity | vm_compute; reflexivity]. Qed.
Example C45_example_projection : projection_inverts (m_project toy) (m_invproject toy).
Proof.
  intros x y lon lat Fx Fy Bx By E. cbn [toy m_project m_invproject] in *.
  unfold toy_project in E at 1. destruct (_ && _) eqn:C; [|discriminate]. injection E as <- <-.
  exists x, y. unfold toy_project. rewrite C. split; [reflexivity|]. split; [exact Fx|]. split; [exact Fy|].
  unfold Rminus. rewrite !Rplus_opp_r, !Rabs_R0. repeat split; try lra; assumption.
Qed.
