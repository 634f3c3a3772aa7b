(** The ground surface. *)
From Coq Require Import ZArith Bool Reals Lra Lia Psatz String List.
From Flocq Require Import Core BinarySingleNaN.
From Verif Require Import Outcome Float Payload Addr SpecOct SpecGeom AddrFacts FloatFacts Geom GeomFacts
  GeomProof GeomRot ErrorHandler VMQuery SpecQuery QueryFacts QueryProof.
Import ListNotations.
Open Scope Z_scope.

Definition finite_single (x : f32) : Prop := valid_binary prec32 emax32 x = true /\ is_fin x = true.

Lemma single_bounds s m e : valid_binary prec32 emax32 (S754_finite s m e) = true ->
  Zpos m < 2 ^ 24 /\ -149 <= e <= 104.
Proof.
  cbn [valid_binary]. unfold bounded. intros H. apply andb_true_iff in H. destruct H as [H1 H2].
  apply Z.leb_le in H2. unfold canonical_mantissa in H1. apply Zeq_bool_eq in H1.
  unfold SpecFloat.fexp, SpecFloat.emin, emax32, prec32 in *.
  pose proof (Digits.Zpos_digits2_pos m) as D. rewrite D in H1.
  assert (D24 : Digits.Zdigits radix2 (Zpos m) <= 24) by lia.
  split; [|lia].
  pose proof (Digits.Zdigits_correct radix2 (Zpos m)) as [_ D2]. rewrite Z.abs_eq in D2 by lia.
  eapply Z.lt_le_trans; [exact D2|]. change (2 ^ 24) with (radix2 ^ 24). apply Zpower_le, D24.
Qed.

Lemma widen_repr x : finite_single x -> repr (widen x) (value x).
Proof.
  intros [V F]. destruct x as [s| | |s m e]; try discriminate F.
  - split; [reflexivity|]. split; [reflexivity|]. reflexivity.
  - destruct (single_bounds s m e V) as [Hm He].
    set (r := value (S754_finite s m e)).
    assert (Er : r = (IZR (if s then Z.neg m else Z.pos m) * bpow radix2 e)%R).
    { unfold r, value, SF2R, F2R. destruct s; reflexivity. }
    assert (D : dy r).
    { exists (if s then Z.neg m else Z.pos m), e. split; [exact Er|]. split; [|lia].
      destruct s; lia. }
    pose proof (normalize_exact prec64 emax64 Hp64 Hm64 (if s then Z.neg m else Z.pos m) e s) as N.
    assert (EF : F2R (Float radix2 (if s then Z.neg m else Z.pos m) e) = r) by (rewrite Er; reflexivity).
    cbv zeta in N. rewrite EF in N. destruct (N (dy_fmt _ D) (dy_bound _ D)) as [N1 N2].
    split; [apply (convert_valid prec64 emax64 Hp64 Hm64)|]. split; [exact N2 | exact N1].
Qed.

(** ** Sizes *)
Open Scope R_scope.
Local Notation rnd64 := (round radix2 (SpecFloat.fexp prec64 emax64) (round_mode mode_NE)).
#[local] Instance fexp64_ok : Valid_exp (SpecFloat.fexp prec64 emax64) := fexp_correct prec64 emax64 Hp64.
#[local] Instance rnd64_ok : Valid_rnd (round_mode mode_NE) := valid_rnd_N _.

Definition fits (n : Z) (x : f64) : Prop := finite_double x /\ Rabs (value x) <= bpow radix2 n.

Lemma rnd_fits v n : (0 <= n <= 950)%Z -> Rabs v <= bpow radix2 n -> Rabs (rnd64 v) <= bpow radix2 n.
Proof.
  intros Hn H. apply abs_round_le_generic; try typeclasses eauto; [|exact H].
  apply dy_fmt. exists (2 ^ 52)%Z, (n - 52)%Z. split.
  - rewrite <- bpow_Z by lia. rewrite <- bpow_plus. f_equal. lia.
  - split; [lia|]. lia.
Qed.
Lemma lt_emax v n : (0 <= n <= 950)%Z -> Rabs v <= bpow radix2 n -> Rabs v < bpow radix2 emax64.
Proof. intros Hn H. eapply Rle_lt_trans; [exact H|]. apply bpow_lt. unfold emax64. lia. Qed.

Lemma fits_add n x y : (0 <= n <= 900)%Z -> fits n x -> fits n y -> fits (n + 1) (add64 x y).
Proof.
  intros Hn [[Vx Fx] Bx] [[Vy Fy] By].
  assert (B : Rabs (value x + value y) <= bpow radix2 (n + 1)).
  { rewrite bpow_plus. change (bpow radix2 1) with 2. eapply Rle_trans; [apply Rabs_triang|]. lra. }
  pose proof (add_round prec64 emax64 Hp64 Hm64 x y Vx Vy Fx Fy) as R.
  pose proof (rnd_fits _ (n + 1) ltac:(lia) B) as B'.
  rewrite Rlt_bool_true in R by (apply (lt_emax _ (n + 1)); [lia | exact B']). destruct R as [R1 R2].
  split; [split; [apply (add_valid prec64 emax64 Hp64 Hm64); assumption | exact R2]|].
  unfold value at 1. unfold add64. rewrite R1. exact B'.
Qed.
Lemma fits_sub n x y : (0 <= n <= 900)%Z -> fits n x -> fits n y -> fits (n + 1) (sub64 x y).
Proof.
  intros Hn [[Vx Fx] Bx] [[Vy Fy] By].
  assert (B : Rabs (value x - value y) <= bpow radix2 (n + 1)).
  { rewrite bpow_plus. change (bpow radix2 1) with 2. unfold Rminus.
    eapply Rle_trans; [apply Rabs_triang|]. rewrite Rabs_Ropp. lra. }
  pose proof (sub_round prec64 emax64 Hp64 Hm64 x y Vx Vy Fx Fy) as R.
  pose proof (rnd_fits _ (n + 1) ltac:(lia) B) as B'.
  rewrite Rlt_bool_true in R by (apply (lt_emax _ (n + 1)); [lia | exact B']). destruct R as [R1 R2].
  split; [split; [apply (sub_valid prec64 emax64 Hp64 Hm64); assumption | exact R2]|].
  unfold value at 1. unfold sub64. rewrite R1. exact B'.
Qed.
Lemma fits_mul n m x y : (0 <= n <= 450)%Z -> (0 <= m <= 450)%Z -> fits n x -> fits m y -> fits (n + m) (mul64 x y).
Proof.
  intros Hn Hm [[Vx Fx] Bx] [[Vy Fy] By].
  assert (B : Rabs (value x * value y) <= bpow radix2 (n + m)).
  { rewrite bpow_plus, Rabs_mult. apply Rmult_le_compat; try apply Rabs_pos; assumption. }
  pose proof (mul_round prec64 emax64 Hp64 Hm64 x y Vx Vy Fx Fy) as R.
  pose proof (rnd_fits _ (n + m) ltac:(lia) B) as B'.
  rewrite Rlt_bool_true in R by (apply (lt_emax _ (n + m)); [lia | exact B']). destruct R as [R1 R2].
  split; [split; [apply (mul_valid prec64 emax64 Hp64 Hm64); assumption | exact R2]|].
  unfold value at 1. unfold mul64. rewrite R1. exact B'.
Qed.
Lemma fits_more n m x : (n <= m)%Z -> fits n x -> fits m x.
Proof. intros H [F B]. split; [exact F|]. eapply Rle_trans; [exact B | apply bpow_le, H]. Qed.
Lemma repr_fits n x r : repr x r -> Rabs r <= bpow radix2 n -> fits n x.
Proof. intros (V & F & E) B. split; [split; assumption|]. unfold value. rewrite E. exact B. Qed.
Lemma int_fits z : (Z.abs z < 2 ^ 53)%Z -> fits 53 (i2f64 z).
Proof.
  intros H. apply (repr_fits 53 _ _ (repr_int z H)). rewrite <- abs_IZR, bpow_Z by lia. apply IZR_le. lia.
Qed.

Lemma vert_fits elev : fits 200 elev -> fits 204 (vert_r elev).
Proof.
  intros F. unfold vert_r.
  assert (I : forall z m, (Z.abs z < 2 ^ 53)%Z -> (53 <= m)%Z -> fits m (i2f64 z)).
  { intros z m Hz Hm. apply (fits_more 53); [exact Hm | apply int_fits, Hz]. }
  change 204%Z with (203 + 1)%Z. apply fits_add; [lia| |apply I; lia].
  change 203%Z with (201 + 2)%Z. apply fits_mul; [lia | lia | |].
  - change 201%Z with (200 + 1)%Z. apply fits_sub; [lia | exact F | apply I; lia].
  - apply (repr_fits 2 _ 4); [apply (repr_int 4); lia|]. rewrite Rabs_right by lra. cbn. lra.
Qed.

Lemma depth_fits v : finite_single (p_dfs v) -> fits 128 (widen (p_dfs v)).
Proof.
  intros F. apply (repr_fits 128 _ _ (widen_repr _ F)).
  apply Rlt_le. apply (val_lt_emax prec32 emax32). apply F.
Qed.

Lemma double_cases c : finite_double c -> inside c \/ on_upper_face c \/ outside c.
Proof.
  intros F. destruct (Rlt_le_dec (value c) 0) as [H|H].
  - right. right. split; [apply F|]. right. right. split; [apply F | left; exact H].
  - destruct (Rlt_le_dec (value c) root) as [K|K]; [left; split; [exact F | split; assumption]|].
    destruct (Req_dec (value c) root) as [Q|Q]; [right; left; split; assumption|].
    right. right. split; [apply F|]. right. right. split; [apply F | right; lra].
Qed.

Open Scope Z_scope.
Section Surface.
Context {DB : Type}.
Variable E : env DB.
Variable q : qstate DB.
Notation g := (q_geom q).

Lemma addr31 lon lat elev w : at_place q lon lat elev w -> place_inside w \/ place_beyond w ->
  exists e a, lonLatElevToAddr g (mkAddr 0 0 0 0 MAXLEVEL Leaf) lon lat elev = Val (e, a) /\
    a_level a = 31 /\ (place_inside w -> octant_ok a /\ holds a w) /\
    (place_beyond w -> exists t, In t [a_x a; a_y a; a_z a] /\ 2 ^ 31 <= t).
Proof.
  intros HP HW. destruct w as [[p r] s]. unfold MAXLEVEL.
  assert (L31 : 0 <= a_level (mkAddr 0 0 0 0 31 Leaf) <= 31) by (cbn; lia).
  assert (NB : place_inside (p, r, s) -> place_beyond (p, r, s) -> False).
  { intros (I1 & I2 & I3) B.
    assert (G : forall c, In c [p; r; s] -> inside c).
    { intros c [<-|[<-|[<-|[]]]]; assumption. }
    assert (NO : forall c, inside c -> ~ outside c /\ ~ on_upper_face c).
    { intros c [[V F] [H1 H2]]. split.
      - intros (_ & [->|[->|(_ & [K|K])]]); try discriminate F; lra.
      - intros (_ & K). lra. }
    destruct B as [(c & Ic & O)|(_ & c & Ic & O)]; destruct (NO c (G c Ic)); contradiction. }
  destruct HW as [HI|HB].
  - destruct HI as (I1 & I2 & I3).
    destruct (geom_contains g (mkAddr 0 0 0 0 31 Leaf) lon lat elev p r s L31 HP I1 I2 I3)
      as (b & Eb & Lb & _ & Ob & S1 & S2 & S3).
    exists 0, b. split; [exact Eb|]. split; [exact Lb|]. split.
    + intros _. split; [exact Ob | split; [exact S1 | split; [exact S2 | exact S3]]].
    + intros B. exfalso. apply NB; [split; [exact I1 | split; assumption] | exact B].
  - destruct HB as [HB|[HB1 HB2]].
    + exists 1. eexists. split; [apply (geom_outside g (mkAddr 0 0 0 0 31 Leaf) lon lat elev p r s L31 HP HB)|].
      split; [reflexivity|]. split.
      * intros I. exfalso. apply (NB I). left. exact HB.
      * intros _. exists (2 ^ 32 - 1). cbn. split; [tauto | lia].
    + destruct (geom_upper_face g (mkAddr 0 0 0 0 31 Leaf) lon lat elev p r s L31 HP HB1) as (b & Eb & Lb & T).
      exists 0, b. split; [exact Eb|]. split; [exact Lb|]. split.
      * intros I. exfalso. apply (NB I). right. split; assumption.
      * intros _. destruct HB2 as (c & Ic & Fc).
        assert (G : forall t, In (c, t) [(p, a_x b); (r, a_y b); (s, a_z b)] -> 2 ^ 31 <= t).
        { intros t It. rewrite (proj1 (T c t It) Fc). apply Z.le_refl. }
        destruct Ic as [<-|[<-|[<-|[]]]]; [exists (a_x b) | exists (a_y b) | exists (a_z b)];
          (split; [cbn; tauto | apply G; cbn; tauto]).
Qed.

(** The same column at another elevation. *)
Definition same_column (w w' : place) : Prop := fst w = fst w'.

Lemma other_elev lon lat elev w e : at_place q lon lat elev w -> place_inside w -> fits 200 e ->
  exists w', at_place q lon lat e w' /\ same_column w w' /\ (place_inside w' \/ place_beyond w').
Proof.
  intros HP HI F. destruct w as [[p r] s]. destruct HI as (I1 & I2 & _).
  destruct HP as (x & y & Ep & -> & -> & _).
  exists (rot_p g x y, rot_q g x y, vert_r e). split; [exists x, y; auto|]. split; [reflexivity|].
  destruct (double_cases (vert_r e) (proj1 (vert_fits e F))) as [H|[H|H]].
  - left. split; [exact I1 | split; [exact I2 | exact H]].
  - right. right. split.
    + intros c [<-|[<-|[<-|[]]]]; [left; exact I1 | left; exact I2 | right; exact H].
    + exists (vert_r e). split; [cbn; tauto | exact H].
  - right. left. exists (vert_r e). split; [cbn; tauto | exact H].
Qed.

Lemma toLonLat_ok h z : 0 <= a_level h <= 31 -> (exists r, addrToLonLatElev g h = Val r) -> exists lon lat,
  addrToLonLatElev g (mkAddr (a_x h) (a_y h) z (a_t h) (a_level h) (a_type h)) =
  Val (lon, lat, add64 (div64 (sub64 (centre (a_level h) z) ROOTLEN) VERTEXAG) MAXELEV).
Proof.
  intros Hl [r Hr]. unfold addrToLonLatElev in *. cbn [a_level a_x a_y a_z].
  replace ((0 <=? a_level h) && (a_level h <? 32)) with true in *
    by (symmetry; apply andb_true_iff; split; [apply Z.leb_le | apply Z.ltb_lt]; lia).
  cbn [assert_ bind] in *. unfold invProject in *.
  match goal with |- context [m_invproject g ?x ?y] => destruct (m_invproject g x y) as [[lo la]|] end;
    [|discriminate]. cbn [bind]. eauto.
Qed.

Lemma centre_elev_ok l z : 0 <= l <= 31 -> 0 <= z < 2 ^ 31 -> (side l | z) ->
  centre_elev z l (add64 (div64 (sub64 (centre l z) ROOTLEN) VERTEXAG) MAXELEV).
Proof.
  intros Hl Hz Hd. destruct (elevation_repr l z Hl Hz Hd) as [(V & F & Ev) _]. cbv zeta in Ev.
  split; [split; [exact V | exact F]|]. exact Ev.
Qed.
Lemma centre_elev_fits z l c : 0 <= l <= 31 -> 0 <= z < 2 ^ 31 -> (side l | z) -> centre_elev z l c -> fits 30 c.
Proof.
  intros Hl Hz Hd [F Ev]. split; [exact F|]. rewrite Ev. unfold centre_of.
  assert (S0 : (0 < IZR (side l))%R) by (apply IZR_lt, side_pos, Hl).
  assert (Hd' : z + side l <= 2 ^ 31).
  { destruct Hd as [k Hk]. pose proof (side_pow l Hl). pose proof (side_pos l Hl).
    assert (k + 1 <= 2 ^ l) by nia. nia. }
  assert (B1 : (IZR z + IZR (side l) <= 2147483648)%R) by (rewrite <- plus_IZR; apply IZR_le; exact Hd').
  assert (B0 : (0 <= IZR z)%R) by (apply IZR_le; lia).
  assert (T : (0 <= (IZR z + IZR (side l) / 2) * tick <= root)%R).
  { pose proof tick_pos as T0. split; [apply Rmult_le_pos; lra|].
    apply Rle_trans with (2147483648 * tick)%R; [apply Rmult_le_compat_r; lra|].
    unfold tick. cbn. lra. }
  unfold root in *. apply Rabs_le. cbn. lra.
Qed.

(** ** The surface elevation *)
(** [s] is the elevation of the surface the query uses for location [w]. *)
Definition surface_is (db : contents) (ext : option contents) (lon lat : f64) (w : place) (allow : bool) (s : f64) : Prop :=
  (no_surface db ext w /\ s = i2f64 (-999)) \/
  (exists src h v s0 w0, surface_octant db ext w src h v /\ surface_elev (a_z h) (a_level h) v s0 /\
     at_place q lon lat s0 w0 /\
     ((place_inside w0 /\ ~ empty_at src w0 /\ s = s0) \/
      (allow = false /\ s = s0) \/
      (allow = true /\ (place_beyond w0 \/ place_inside w0 /\ empty_at src w0) /\
        (side (a_level h) <= a_z h -> surface_elev (a_z h - side (a_level h)) (a_level h) v s)))).

Lemma finest_unique db l w h v h' v' : db_ok db -> finest db l w h v -> finest db l w h' v' -> (h, v) = (h', v').
Proof.
  intros [HO HU] (I & H & L & F) (I' & H' & L' & F').
  pose proof (F _ _ I' H' L') as A. pose proof (F' _ _ I H L) as B.
  apply HU; [exact I | exact I'|].
  assert (C : covers h h') by (apply (cover_holds h h' w); eauto; lia).
  assert (C' : covers h' h) by (apply (cover_holds h' h w); eauto; lia).
  destruct C as (X1 & _ & Y1 & _ & Z1 & _). destruct C' as (X2 & _ & Y2 & _ & Z2 & _).
  split; [lia|]. split; [lia|]. split; lia.
Qed.

Lemma addr_eta h : mkAddr (a_x h) (a_y h) (a_z h) (a_t h) (a_level h) (a_type h) = h.
Proof. destruct h; reflexivity. Qed.

(** The depths stored are finite, and the projection library can convert the
    centres of the stored octants; averages in the detailed database do not matter. *)
Definition depths_ok (db : contents) (ext : option contents) : Prop :=
  forall h v, (In (h, v) db /\ a_type h = Leaf) \/ (exists dbx, ext = Some dbx /\ In (h, v) dbx) ->
    finite_single (p_dfs v) /\ exists r, addrToLonLatElev g h = Val r.

Variables (db : contents) (ext : option contents).
Hypothesis HSet : setup E q db ext.
Hypothesis depths : depths_ok db ext.

Lemma queryElev_found lon lat elev w allow a e0 d src hx v :
  lonLatElevToAddr g (mkAddr 0 0 0 0 MAXLEVEL Leaf) lon lat elev = Val (e0, a) ->
  at_place q lon lat elev w -> place_inside w ->
  searches (e_search E d) src -> db_ok src -> (src = db \/ ext = Some src) ->
  surface_octant db ext w src hx v ->
  exists s, (let depth := widen (p_dfs v) in
      let* (_, _, elevO) := addrToLonLatElev g hx in
      let elevRef := add64 elevO depth in
      let* (_, a2) := lonLatElevToAddr g (mkAddr 0 0 0 0 MAXLEVEL Leaf) lon lat elevRef in
      let above := match e_search E d a2 with
        | None => true
        | Some (hit2, p2) => otype_eqb (a_type hit2) Interior || feq (p_vs p2) NODATAVAL
        end in
      if above && allow then
        let tickLen := Z.shiftr 2147483648 (a_level hx) in
        let hit' := mkAddr (a_x hx) (a_y hx) (u32 (a_z hx - tickLen)) (a_t hx) (a_level hx) (a_type hx) in
        let* (_, _, elevO') := addrToLonLatElev g hit' in
        Val (add64 elevO' depth)
      else Val elevRef) = Val s /\ surface_is db ext lon lat w allow s.
Proof.
  intros Ea HP HI HS HO Hsrc Hoct. cbv zeta.
  assert (Ih : In (hx, v) src).
  { destruct Hoct as [[-> [F _]]|(_ & dbx & _ & -> & F)]; apply F. }
  pose proof (proj1 HO hx v Ih) as (Lh & _ & Oh). destruct (Oh (a_z hx) ltac:(cbn; tauto)) as [Bz Dz].
  assert (Dp : (In (hx, v) db /\ a_type hx = Leaf) \/ (exists dbx, ext = Some dbx /\ In (hx, v) dbx)).
  { destruct Hoct as [[-> [F T]]|(_ & dbx & X & -> & F)]; [left; split; [exact Ih|exact T] | right; exists dbx; split; [exact X|exact Ih]]. }
  pose proof (proj1 (depths hx v Dp)) as Fd. pose proof (proj2 (depths hx v Dp)) as Loc.
  destruct (toLonLat_ok hx (a_z hx) Lh Loc) as (lo & la & El). rewrite addr_eta in El. rewrite El. cbn [bind].
  pose proof (centre_elev_ok _ _ Lh Bz Dz) as CE.
  set (c := add64 (div64 (sub64 (centre (a_level hx) (a_z hx)) ROOTLEN) VERTEXAG) MAXELEV) in *.
  set (s0 := add64 c (widen (p_dfs v))) in *.
  assert (S0 : surface_elev (a_z hx) (a_level hx) v s0) by (exists c; split; [exact CE | reflexivity]).
  assert (Fs : fits 200 s0).
  { apply (fits_more (128 + 1)); [lia|]. apply fits_add; [lia| |apply depth_fits, Fd].
    apply (fits_more 30); [lia|]. apply (centre_elev_fits (a_z hx) (a_level hx)); assumption. }
  destruct (other_elev lon lat elev w s0 HP HI Fs) as (w0 & HP0 & _ & HW0).
  destruct (addr31 lon lat s0 w0 HP0 HW0) as (e2 & a2 & Ea2 & La2 & In2 & Be2).
  rewrite Ea2. cbn [bind].
  set (above := match e_search E d a2 with
        | None => true
        | Some (hit2, p2) => otype_eqb (a_type hit2) Interior || feq (p_vs p2) NODATAVAL
        end).
  assert (HA : (above = true /\ (place_beyond w0 \/ place_inside w0 /\ empty_at src w0)) \/
               (above = false /\ place_inside w0 /\ ~ empty_at src w0)).
  { destruct HW0 as [W|W].
    - destruct (In2 W) as [Oa Wa]. pose proof (finest_search _ src a2 w0 HS HO Oa Wa) as F. rewrite La2 in F.
      unfold above. destruct (e_search E d a2) as [[h2 p2]|].
      + destruct (otype_eqb (a_type h2) Interior || feq (p_vs p2) NODATAVAL) eqn:B.
        * left. split; [reflexivity|]. right. split; [exact W|]. right. exists h2, p2. split; [exact F|].
          apply orb_true_iff in B. destruct B as [B|B]; [left|right; exact B].
          destruct (a_type h2); [discriminate | reflexivity].
        * right. split; [reflexivity|]. split; [exact W|]. intros [N|(h3 & p3 & F3 & B3)].
          -- destruct F as (I & H & L & _). specialize (N _ _ I H). lia.
          -- pose proof (finest_unique _ _ _ _ _ _ _ HO F F3) as Q. injection Q as <- <-.
             apply orb_false_iff in B. destruct B as [B1 B2]. destruct B3 as [B3|B3].
             ++ rewrite B3 in B1. discriminate.
             ++ change (i2f32 (-999)) with NODATAVAL in B3. rewrite B3 in B2. discriminate.
      + left. split; [reflexivity|]. right. split; [exact W|]. left. exact F.
    - left. split; [|left; exact W]. unfold above.
      rewrite (search_beyond _ src a2 HS HO ltac:(lia) (Be2 W)). reflexivity. }
  destruct HA as [[-> HA]|[-> HA]].
  - destruct allow; cbn [andb].
    + set (h' := mkAddr _ _ _ _ _ _).
      assert (Lh' : 0 <= a_level h' <= 31) by exact Lh.
      destruct (toLonLat_ok hx (u32 (a_z hx - Z.shiftr 2147483648 (a_level hx))) Lh Loc) as (lo' & la' & El'). fold h' in El'. rewrite El'. cbn [bind].
      eexists. split; [reflexivity|]. right. exists src, hx, v, s0, w0.
      split; [exact Hoct|]. split; [exact S0|]. split; [exact HP0|]. right. right.
      split; [reflexivity|]. split; [exact HA|]. intros Hs.
      eexists. split; [|reflexivity]. unfold h'. cbn [a_level a_z].
      rewrite (tickLen_side _ Lh). pose proof (side_pos _ Lh) as SP.
      rewrite u32_small by lia. apply centre_elev_ok; [exact Lh | lia|].
      apply Z.divide_sub_r; [exact Dz | apply Z.divide_refl].
    + eexists. split; [reflexivity|]. right. exists src, hx, v, s0, w0.
      split; [exact Hoct|]. split; [exact S0|]. split; [exact HP0|]. right. left. auto.
  - cbn [andb]. eexists. split; [reflexivity|]. right. exists src, hx, v, s0, w0.
    split; [exact Hoct|]. split; [exact S0|]. split; [exact HP0|]. left. tauto.
Qed.

Lemma queryElev_spec lon lat elev w allow : at_place q lon lat elev w -> place_inside w ->
  exists s, queryElev E q lon lat elev allow = Val s /\ surface_is db ext lon lat w allow s.
Proof.
  intros HP HI. pose proof HSet as [(d & Ed & HS & HO) Hx].
  destruct (addr31 lon lat elev w HP (or_introl HI)) as (e & a & Ea & La & Ina & _).
  destruct (Ina HI) as [Oa Wa].
  pose proof (finest_search _ db a w HS HO Oa Wa) as F. rewrite La in F.
  unfold queryElev. rewrite Ea. cbn [bind]. rewrite Ed. cbn [bind].
  assert (NX : no_detailed_leaf db w ->
    exists s, match match q_dbExt q with
        | None => None
        | Some x => match e_search E x a with Some hp => Some (x, hp) | None => None end
        end with
     | None => Val nodata64
     | Some (dbElev, (hit, p)) =>
      let depth := widen (p_dfs p) in
      let* (_, _, elevO) := addrToLonLatElev g hit in
      let elevRef := add64 elevO depth in
      let* (_, a2) := lonLatElevToAddr g (mkAddr 0 0 0 0 MAXLEVEL Leaf) lon lat elevRef in
      let above := match e_search E dbElev a2 with
        | None => true
        | Some (hit2, p2) => otype_eqb (a_type hit2) Interior || feq (p_vs p2) NODATAVAL
        end in
      if above && allow then
        let tickLen := Z.shiftr 2147483648 (a_level hit) in
        let hit' := mkAddr (a_x hit) (a_y hit) (u32 (a_z hit - tickLen)) (a_t hit) (a_level hit) (a_type hit) in
        let* (_, _, elevO') := addrToLonLatElev g hit' in
        Val (add64 elevO' depth)
      else Val elevRef
     end = Val s /\ surface_is db ext lon lat w allow s).
  { intros ND. assert (C : ext = None \/ exists dbx, ext = Some dbx) by (destruct ext; eauto).
    destruct C as [Ex|[dbx Ex]]; rewrite Ex in Hx.
    2: { destruct Hx as (x & Eq & HSx & HOx). rewrite Eq.
      pose proof (finest_search _ dbx a w HSx HOx Oa Wa) as Fx. rewrite La in Fx.
      destruct (e_search E x a) as [[hx vx]|].
      - apply (queryElev_found lon lat elev w allow a e x dbx hx vx Ea HP HI HSx HOx); [auto|].
        right. split; [exact ND|]. exists dbx. auto.
      - exists nodata64. split; [reflexivity|]. left. split; [|reflexivity]. split; [exact ND|].
        rewrite Ex. exact Fx. }
    rewrite Hx. exists nodata64. split; [reflexivity|]. left. split; [|reflexivity]. split; [exact ND|].
    rewrite Ex. exact I. }
  destruct (e_search E d a) as [[h v]|].
  - destruct (otype_eqb (a_type h) Interior) eqn:T.
    + apply NX. right. exists h, v. split; [exact F|]. destruct (a_type h); [discriminate | reflexivity].
    + apply (queryElev_found lon lat elev w allow a e d db h v Ea HP HI HS HO); [auto|].
      left. split; [reflexivity|]. split; [exact F|]. destruct (a_type h); [reflexivity | discriminate].
  - apply NX. left. exact F.
Qed.

(** Outside the root cube there is no surface. *)
Lemma queryElev_beyond lon lat elev w allow : at_place q lon lat elev w -> place_beyond w ->
  queryElev E q lon lat elev allow = Val (i2f64 (-999)).
Proof.
  intros HP HB. pose proof HSet as [(d & Ed & HS & HO) Hx].
  destruct (addr31 lon lat elev w HP (or_intror HB)) as (e & a & Ea & La & _ & Ba).
  assert (La' : 0 <= a_level a <= 31) by lia.
  unfold queryElev. rewrite Ea. cbn [bind]. rewrite Ed. cbn [bind].
  rewrite (search_beyond _ db a HS HO La' (Ba HB)).
  assert (C : ext = None \/ exists dbx, ext = Some dbx) by (destruct ext; eauto).
  destruct C as [Ex|[dbx Ex]]; rewrite Ex in Hx.
  - rewrite Hx. reflexivity.
  - destruct Hx as (x & Eq & HSx & HOx). rewrite Eq, (search_beyond _ dbx a HSx HOx La' (Ba HB)). reflexivity.
Qed.
End Surface.
