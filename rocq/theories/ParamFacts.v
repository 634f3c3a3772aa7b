(** Facts about reading the parameter file of the program that limits gradients. *)
From Coq Require Import ZArith Bool Lia Ascii String List.
From Verif Require Import Outcome Float Payload Geom Store Stream GridIngester VMQuery SpecQuery QueryIndep VsGrader VsRun SpecText StreamFacts SpecParams.
Import ListNotations.
Open Scope string_scope.
Open Scope Z_scope.

(** ** Streams *)
Lemma getWord_front s w c r : blanks s -> word w -> blank c ->
  getWord (fresh (s ++ w ++ String c r)) = (fresh (String c r), Some w).
Proof.
  intros Hs [Hw1 Hw2] Hc. unfold getWord. rewrite good_fresh. unfold fresh at 1. cbn [i_rest].
  rewrite !chars_app, skipws_blanks by exact Hs.
  destruct w as [|c0 w]; [congruence|]. cbn [list_ascii_of_string app skipws].
  rewrite (proj2 (isspace_nonblank c0)) by (apply Hw2; left; reflexivity).
  change (c0 :: chars w ++ c :: chars r)%list with (chars (String c0 w) ++ (c :: chars r))%list.
  rewrite takeword_word by exact Hw2.
  cbn [app takeword]. rewrite (proj2 (isspace_blank c) Hc). cbn [fst snd].
  rewrite app_nil_r, string_of_list_ascii_of_string. reflexivity.
Qed.
Lemma blanks_app a b : blanks a -> blanks b -> blanks (a ++ b).
Proof. intros A B c. rewrite chars_app, in_app_iff. intros [H|H]; [apply A, H | apply B, H]. Qed.
Lemma blanks_nil : blanks "".
Proof. intros c []. Qed.
Lemma blanks_one c : blank c -> blanks (String c "").
Proof. intros H x [<-|[]]. exact H. Qed.

Lemma skipTo_gap n d g r : ~ In d (chars g) -> (String.length g < n)%nat ->
  skipTo n d (chars (g ++ String d r)) = (chars r, false).
Proof.
  revert n. induction g as [|c g IH]; intros n HN HL.
  - destruct n as [|n]; [cbn in HL; lia|]. cbn. rewrite Ascii.eqb_refl. reflexivity.
  - destruct n as [|n]; [cbn in HL; lia|]. cbn [append list_ascii_of_string skipTo].
    destruct (Ascii.eqb_spec c d) as [->|_]; [exfalso; apply HN; left; reflexivity|].
    apply IH; [intros H; apply HN; right; exact H | cbn in HL; lia].
Qed.
Lemma ignore_gap d g r : gap d g -> ignore maxIgnore d (fresh (g ++ String d r)) = fresh r.
Proof.
  intros (_ & HN & HL). unfold ignore. rewrite good_fresh. unfold fresh at 1. cbn [i_rest].
  rewrite skipTo_gap; [reflexivity | exact HN | unfold maxIgnore; lia].
Qed.
Lemma gap_front d g r : gap d g -> exists c x, g ++ r = String c x /\ blank c.
Proof. intros ((c & x & -> & B) & _). exists c, (x ++ r). split; [reflexivity | exact B]. Qed.
Lemma getWord_gap s k d g r : blanks s -> word k -> gap d g ->
  getWord (fresh (s ++ k ++ g ++ r)) = (fresh (g ++ r), Some k).
Proof.
  intros Hs Hk Hg. destruct (gap_front d g r Hg) as (c & x & -> & B). apply getWord_front; assumption.
Qed.
Lemma getNum_front {A} (conv : string -> A * bool) old s w c r : blanks s -> word w -> blank c ->
  getNum conv old (fresh (s ++ w ++ String c r)) = (mkIn (chars (String c r)) false (negb (snd (conv w))), fst (conv w)).
Proof. intros Hs Hw Hc. unfold getNum. rewrite getWord_front by assumption. destruct (conv w). reflexivity. Qed.
Lemma getFresh_front {A} (conv : string -> A * bool) s w c r : blanks s -> word w -> blank c ->
  getFresh conv (fresh (s ++ w ++ String c r)) = Val (mkIn (chars (String c r)) false (negb (snd (conv w))), fst (conv w)).
Proof. intros Hs Hw Hc. unfold getFresh. rewrite getWord_front by assumption. destruct (conv w). reflexivity. Qed.

(** ** Names *)
Lemma named_dec a b : named a b \/ ~ named a b.
Proof. unfold named. destruct (list_eq_dec ascii_dec (lowercase a) (lowercase b)); auto. Qed.
Lemma named_cmp a b : named a b -> casecmp a b = true.
Proof. apply casecmp_iff. Qed.
Lemma cmp_named a b : casecmp a b = true -> named a b.
Proof. apply casecmp_iff. Qed.
Lemma not_named_cmp a b : ~ named a b -> casecmp a b = false.
Proof. intros H. destruct (casecmp a b) eqn:E; [|reflexivity]. apply cmp_named in E. contradiction. Qed.
Lemma named_cong k n s : named k n -> casecmp k s = casecmp n s.
Proof.
  intros H. destruct (casecmp n s) eqn:E.
  - apply named_cmp. apply cmp_named in E. unfold named in *. congruence.
  - apply not_named_cmp. intros H2. assert (named n s) by (unfold named in *; congruence). apply named_cmp in H0. congruence.
Qed.
Lemma named_cong2 k n s : named k n -> casecmp s k = casecmp s n.
Proof.
  intros H. destruct (casecmp s n) eqn:E.
  - apply named_cmp. apply cmp_named in E. unfold named in *. congruence.
  - apply not_named_cmp. intros H2. assert (named s n) by (unfold named in *; congruence). apply named_cmp in H0. congruence.
Qed.
Definition dname (p : dparam) : string :=
  match p with
  | DLon => "swcorner-lon" | DLat => "swcorner-lat" | DElev => "swcorner-elev" | DLen => "domain-length"
  | DWidth => "domain-width" | DHt => "domain-height" | DRes => "resolution-vert" | DGradient => "vs-gradient-max" | DMinVs => "vs-min"
  end.
Lemma dtoken_cong k n : named k n -> dtoken k = dtoken n.
Proof. intros H. unfold dtoken. rewrite !(named_cong k n _ H). reflexivity. Qed.
Lemma dtoken_dname p : dtoken (dname p) = Some p.
Proof. destruct p; reflexivity. Qed.
Lemma dtoken_iff k p : dtoken k = Some p <-> named k (dname p).
Proof.
  split.
  - unfold dtoken. intros H.
    repeat match type of H with (if casecmp k ?n then _ else _) = _ => destruct (casecmp k n) eqn:?E; [injection H as <-; apply cmp_named; assumption|] end.
    discriminate.
  - intros H. rewrite (dtoken_cong _ _ H). apply dtoken_dname.
Qed.
Lemma number_name n : In n number_names <-> exists p, n = dname p.
Proof.
  split.
  - intros H. cbn in H. destruct H as [<-|[<-|[<-|[<-|[<-|[<-|[<-|[<-|[<-|[]]]]]]]]]];
    [exists DGradient|exists DMinVs|exists DLon|exists DLat|exists DElev|exists DLen|exists DWidth|exists DHt|exists DRes]; reflexivity.
  - intros [p ->]. destruct p; cbn; auto 10.
Qed.
Lemma dtoken_none k : (forall n, In n number_names -> ~ named k n) -> dtoken k = None.
Proof.
  intros H. destruct (dtoken k) as [p|] eqn:E; [|reflexivity]. apply dtoken_iff in E. exfalso. apply (H (dname p)); [|exact E].
  apply number_name. exists p. reflexivity.
Qed.

(** ** One setting *)
Section Settings.
Variable F : numfmt.

Definition kind_of (w : string) : qtype :=
  if casecmp "maxres" w then MAXRES else if casecmp "fixedres" w then FIXEDRES else WAVERES.
Definition updated (v : vsgrader) (e : string * string) : vsgrader :=
  match dtoken (fst e) with
  | Some p => set_g v (dset p (fst (n_f64 F (snd e))) (vg_g v))
  | None =>
      if casecmp (fst e) "cache-size" then (if 0 <? fst (n_int F (snd e)) then set_cache v (fst (n_int F (snd e))) else v)
      else if casecmp (fst e) "query-resolution" then (if fle f_zero (fst (n_f64 F (snd e))) then set_res v (fst (n_f64 F (snd e))) else v)
      else if casecmp (fst e) "query-type" then set_type v (kind_of (snd e))
      else v
  end.

Lemma setting_ok k w g s c r v : acceptable F (k, w) -> gap "=" g -> blanks s -> word w -> blank c ->
  setting F k (fresh (g ++ "=" ++ s ++ w ++ String c r)) v = Val (fresh (String c r), updated v (k, w)).
Proof.
  intros HA Hg Hs Hw Hc. unfold setting.
  change ("=" ++ s ++ w ++ String c r) with (String "=" (s ++ w ++ String c r)). rewrite ignore_gap by exact Hg.
  unfold updated. cbn [fst snd]. unfold acceptable in HA. cbn [fst snd] in HA.
  destruct HA as [(n & I & HN & OK)|[(HN & OK)|[(HN & OK)|(HN & t & I & HT)]]].
  - apply number_name in I. destruct I as [p ->]. rewrite (proj2 (dtoken_iff k p) HN).
    rewrite getNum_front by assumption. rewrite OK. reflexivity.
  - rewrite (dtoken_cong _ _ HN), (named_cmp _ _ HN). cbn [dtoken].
    change (dtoken "cache-size") with (@None dparam). cbv iota. rewrite getFresh_front by assumption. rewrite OK. reflexivity.
  - rewrite (dtoken_cong _ _ HN). change (dtoken "query-resolution") with (@None dparam). cbv iota.
    rewrite !(named_cong _ _ _ HN). change (casecmp "query-resolution" "cache-size") with false.
    change (casecmp "query-resolution" "query-resolution") with true. cbv iota.
    rewrite getFresh_front by assumption. rewrite OK. reflexivity.
  - rewrite (dtoken_cong _ _ HN). change (dtoken "query-type") with (@None dparam). cbv iota.
    rewrite !(named_cong _ _ _ HN). change (casecmp "query-type" "cache-size") with false.
    change (casecmp "query-type" "query-resolution") with false. change (casecmp "query-type" "query-type") with true. cbv iota.
    rewrite getWord_front by assumption. unfold kind_of. rewrite !(named_cong2 _ _ _ HT).
    cbn [In] in I. destruct I as [<-|[<-|[<-|[]]]]; reflexivity.
Qed.

(** ** The loop *)
Definition loop (fuel : nat) (old : string) (s : istream) (v : vsgrader) : outcome (istream * vsgrader) :=
  let (s', w) := getWord s in settings F fuel (match w with Some w => w | None => old end) s' v.

Lemma acceptable_not_brace k w : acceptable F (k, w) -> String.eqb k "}" = false.
Proof.
  intros H. apply String.eqb_neq. intros ->. unfold acceptable in H. cbn [fst snd] in H.
  destruct H as [(n & I & HN & _)|[(HN & _)|[(HN & _)|(HN & _)]]]; try discriminate HN.
  apply number_name in I. destruct I as [p ->]. destruct p; discriminate HN.
Qed.

Lemma loop_entries es t : laid_settings es t -> Forall (acceptable F) es -> forall fuel old b v tail, blanks b ->
  exists b' old', blanks b' /\
    loop (List.length es + fuel) old (fresh (b ++ t ++ tail)) v = loop fuel old' (fresh (b' ++ tail)) (fold_left updated es v).
Proof.
  intros HL. induction HL as [|s k g s' w c es t Hs Hk Hg Hs' Hw Hc HL IH]; intros HA fuel old b v tail Hb.
  - exists b, old. split; [exact Hb | reflexivity].
  - inversion HA as [|e es' HA1 HA2]; subst.
    destruct (IH HA2 fuel k (String c "") (updated v (k, w)) tail (blanks_one c Hc)) as (b' & old' & Hb' & E).
    exists b', old'. split; [exact Hb'|].
    cbn [List.length Nat.add fold_left]. rewrite <- E. unfold loop at 1.
    replace (b ++ (s ++ k ++ g ++ "=" ++ s' ++ w ++ String c t) ++ tail)
      with ((b ++ s) ++ k ++ g ++ "=" ++ s' ++ w ++ String c (t ++ tail)) by (rewrite !app_assoc_s; reflexivity).
    rewrite (getWord_gap (b ++ s) k "=" g) by (try apply blanks_app; assumption).
    cbn [settings]. rewrite good_fresh, (acceptable_not_brace _ _ HA1). cbn [andb negb].
    rewrite setting_ok by assumption. cbn [bind].
    replace (String c "" ++ t ++ tail) with (String c (t ++ tail)) by reflexivity. reflexivity.
Qed.

(** What may follow the settings. *)
Lemma loop_closing fuel old b v tail : blanks b -> closing tail ->
  exists s, loop (S fuel) old (fresh (b ++ tail)) v = Val (s, v) /\ good s = true.
Proof.
  intros Hb (s & c & rest & Hs & Hc & ->). exists (fresh (String c rest)). split; [|reflexivity].
  unfold loop. rewrite <- app_assoc_s. change ("}" ++ String c rest) with (("}") ++ String c rest).
  rewrite getWord_front; [|apply blanks_app; assumption| |exact Hc].
  - reflexivity.
  - split; [discriminate|]. intros x [<-|[]] [H|[H|[H|[H|[H|[H|[]]]]]]]; discriminate H.
Qed.
Lemma loop_ended fuel old b v tail : blanks b -> (exists s e, tail = s ++ e /\ blanks s /\ unterminated e) ->
  exists s, loop (S fuel) old (fresh (b ++ tail)) v = Val (s, v) /\ good s = false.
Proof.
  intros Hb (s & e & -> & Hs & He). pose proof (getWord_end (b ++ s) e (blanks_app _ _ Hb Hs) He) as G.
  unfold loop. rewrite <- app_assoc_s. destruct (getWord (fresh ((b ++ s) ++ e))) as [s' w]. cbn [fst] in G.
  exists s'. split; [|exact G]. cbn [settings]. rewrite G. reflexivity.
Qed.
Lemma loop_stop fuel old s v : good s = false -> exists s', loop (S fuel) old s v = Val (s', v) /\ good s' = false.
Proof.
  intros G. unfold loop. rewrite getWord_bad2 by exact G. eexists. split.
  - cbn [settings]. unfold good at 1. cbn [i_eof i_fail]. rewrite andb_false_r. reflexivity.
  - unfold good. cbn. apply andb_false_r.
Qed.

Lemma unknown_cmp k : unknown_name k -> dtoken k = None /\ casecmp k "cache-size" = false /\ casecmp k "query-resolution" = false /\
  casecmp k "query-type" = false /\ String.eqb k "}" = false.
Proof.
  intros H. split; [apply dtoken_none; intros n I; apply H; apply in_app_iff; right; exact I|].
  split; [apply not_named_cmp, H; cbn; auto|]. split; [apply not_named_cmp, H; cbn; auto|]. split; [apply not_named_cmp, H; cbn; auto|].
  apply String.eqb_neq. intros ->. apply (H "}"); [cbn; auto | reflexivity].
Qed.
Lemma loop_unknown fuel old b v s k c rest : blanks b -> blanks s -> word k -> blank c -> unknown_name k ->
  loop (S fuel) old (fresh (b ++ s ++ k ++ String c rest)) v = Throw ("Could not parse '" ++ k ++ "' into a parameter setting.").
Proof.
  intros Hb Hs Hk Hc HU. destruct (unknown_cmp k HU) as (D & C1 & C2 & C3 & B).
  unfold loop. rewrite <- app_assoc_s, getWord_front; [|apply blanks_app; assumption|exact Hk|exact Hc].
  cbn [settings]. rewrite good_fresh, B. cbn [andb negb]. unfold setting. rewrite D, C1, C2, C3. reflexivity.
Qed.
Lemma loop_bad_type fuel old b v s k g s' w c rest : blanks b -> blanks s -> word k -> gap "=" g -> blanks s' -> word w -> blank c ->
  named k "query-type" -> (forall t, In t ["maxres"; "fixedres"; "waveres"]%string -> ~ named w t) ->
  loop (S fuel) old (fresh (b ++ s ++ k ++ g ++ "=" ++ s' ++ w ++ String c rest)) v =
    Throw ("Could not parse query type '" ++ w ++ "' into a known type of query.").
Proof.
  intros Hb Hs Hk Hg Hs' Hw Hc HN HT.
  unfold loop. rewrite <- app_assoc_s. rewrite (getWord_gap (b ++ s) k "=" g) by (try apply blanks_app; assumption).
  cbn [settings]. rewrite good_fresh. destruct (String.eqb_spec k "}") as [->|_]; [discriminate HN|]. cbn [andb negb].
  unfold setting. rewrite (dtoken_cong _ _ HN). change (dtoken "query-type") with (@None dparam). cbv iota.
  rewrite !(named_cong _ _ _ HN). change (casecmp "query-type" "cache-size") with false.
  change (casecmp "query-type" "query-resolution") with false. change (casecmp "query-type" "query-type") with true. cbv iota.
  change ("=" ++ s' ++ w ++ String c rest) with (String "=" (s' ++ w ++ String c rest)). rewrite ignore_gap by exact Hg.
  rewrite getWord_front by assumption.
  assert (C : forall t, In t ["maxres"; "fixedres"; "waveres"]%string -> casecmp t w = false).
  { intros t I. apply not_named_cmp. intros H. apply (HT t I). unfold named in *. congruence. }
  rewrite !C by (cbn; auto). reflexivity.
Qed.
(** A name of a number, and a word that is none. *)
Lemma loop_bad_number fuel old b v s k g s' w c rest n : blanks b -> blanks s -> word k -> gap "=" g -> blanks s' -> word w -> blank c ->
  In n number_names -> named k n -> snd (n_f64 F w) = false ->
  exists s2 v2, loop (S (S fuel)) old (fresh (b ++ s ++ k ++ g ++ "=" ++ s' ++ w ++ String c rest)) v = Val (s2, v2) /\ good s2 = false.
Proof.
  intros Hb Hs Hk Hg Hs' Hw Hc I HN Bad. apply number_name in I. destruct I as [p ->].
  unfold loop. rewrite <- app_assoc_s. rewrite (getWord_gap (b ++ s) k "=" g) by (try apply blanks_app; assumption).
  remember (S fuel) as f2. cbn [settings]. rewrite good_fresh. destruct (String.eqb_spec k "}") as [->|_]; [destruct p; discriminate HN|]. cbn [andb negb].
  unfold setting. rewrite (proj2 (dtoken_iff k p) HN).
  change ("=" ++ s' ++ w ++ String c rest) with (String "=" (s' ++ w ++ String c rest)). rewrite ignore_gap by exact Hg.
  rewrite getNum_front by assumption. rewrite Bad. cbn [bind negb]. subst f2.
  match goal with |- context [getWord ?S0] => destruct (loop_stop fuel k S0 (set_g v (dset p (fst (n_f64 F w)) (vg_g v))) eq_refl) as (s3 & E & G) end.
  unfold loop in E. rewrite E. eexists. eexists. split; [reflexivity | exact G].
Qed.
(** cache-size or query-resolution at the very end, without value. *)
Lemma loop_no_value fuel old b v s k g s' : blanks b -> blanks s -> word k -> gap "=" g -> blanks s' ->
  named k "cache-size" \/ named k "query-resolution" ->
  loop (S fuel) old (fresh (b ++ s ++ k ++ g ++ "=" ++ s')) v = UB "uninitialised number read".
Proof.
  intros Hb Hs Hk Hg Hs' HN.
  assert (NB : String.eqb k "}" = false) by (apply String.eqb_neq; intros ->; destruct HN as [HN|HN]; discriminate HN).
  unfold loop. rewrite <- app_assoc_s. rewrite (getWord_gap (b ++ s) k "=" g) by (try apply blanks_app; assumption).
  cbn [settings]. rewrite good_fresh, NB. cbn [andb negb]. unfold setting.
  change ("=" ++ s') with (String "=" s'). rewrite ignore_gap by exact Hg.
  destruct HN as [HN|HN]; rewrite (dtoken_cong _ _ HN), ?(named_cong _ _ _ HN).
  - change (dtoken "cache-size") with (@None dparam). cbv iota. change (casecmp "cache-size" "cache-size") with true. cbv iota.
    unfold getFresh. rewrite getWord_none by exact Hs'. reflexivity.
  - change (dtoken "query-resolution") with (@None dparam). cbv iota.
    change (casecmp "query-resolution" "cache-size") with false. change (casecmp "query-resolution" "query-resolution") with true. cbv iota.
    unfold getFresh. rewrite getWord_none by exact Hs'. reflexivity.
Qed.

(** ** The file *)
Lemma settings_length es t : laid_settings es t -> (List.length es <= String.length t)%nat.
Proof.
  induction 1 as [|s k g s' w c es t Hs Hk Hg Hs' Hw Hc HL IH]; [cbn; lia|].
  rewrite !length_app_s. cbn. lia.
Qed.
Definition started (v : vsgrader) : vsgrader := set_g v (reset_params (vg_g v)).
Lemma read_start T v text es tail : T (vg_params v) = Some text -> starts_with es tail text -> Forall (acceptable F) es ->
  exists fuel b old, blanks b /\
  readParams F T v =
    (let* (s, v) := loop (S (S fuel)) old (fresh (b ++ tail)) (fold_left updated es (started v)) in
     if negb (good s) then Throw "I/O error while parsing settings."
     else match complaints v with [] => Val v | l => Throw (String.concat "" l) end).
Proof.
  intros HT (s & name & g & t & -> & Hs & Hn & HN & Hg & HL) HA.
  set (text := s ++ name ++ g ++ "{" ++ t ++ tail) in *.
  assert (LB : exists fuel, S (String.length text) = (List.length es + S (S fuel))%nat).
  { pose proof (settings_length _ _ HL). unfold text. rewrite !length_app_s. destruct Hn as [Hn _]. destruct name; [congruence|].
    cbn [String.length]. exists (S (String.length s + S (String.length name) + (String.length g + (1 + (String.length t + String.length tail)))) - List.length es - 2)%nat. lia. }
  destruct LB as [fuel LB].
  destruct (loop_entries es t HL HA (S (S fuel)) "" "" (started v) tail blanks_nil) as (b & old & Hb & E).
  exists fuel, b, old. split; [exact Hb|].
  unfold readParams. fold (started v). change (vg_params (started v)) with (vg_params v). rewrite HT.
  change (openText text) with (fresh text). unfold text at 1.
  rewrite (getWord_gap s name "{" g) by assumption. rewrite (named_cmp _ _ HN).
  change ("{" ++ t ++ tail) with (String "{" (t ++ tail)). rewrite ignore_gap by exact Hg.
  rewrite LB. rewrite <- E. unfold loop. change ("" ++ t ++ tail) with (t ++ tail).
  destruct (getWord (fresh (t ++ tail))) as [s1 w1]. reflexivity.
Qed.
End Settings.

(** ** Values *)
Lemma last_such_snoc {A} (P : A -> Prop) l x r : (P x \/ ~ P x) -> last_such P l r ->
  (P x -> last_such P (l ++ [x]) (Some x)) /\ (~ P x -> last_such P (l ++ [x]) r).
Proof.
  intros D HL. split.
  - intros HP. split; [exact HP|]. exists l, []. split; [reflexivity | intros y []].
  - intros HP. destruct r as [y|].
    + destruct HL as (Py & a & b & -> & H). split; [exact Py|]. exists a, (b ++ [x])%list. split; [rewrite <- app_assoc; reflexivity|].
      intros z I. apply in_app_iff in I. destruct I as [I|[<-|[]]]; [apply H, I | exact HP].
    + intros z I. apply in_app_iff in I. destruct I as [I|[<-|[]]]; [apply HL, I | exact HP].
Qed.
Lemma fold_last {S0 A} (upd : S0 -> string * string -> S0) (f : S0 -> A) (P : string * string -> Prop) (val : string -> A) (ok : string * string -> Prop) s es :
  (forall e, P e \/ ~ P e) -> (forall s e, ok e -> P e -> f (upd s e) = val (snd e)) -> (forall s e, ok e -> ~ P e -> f (upd s e) = f s) ->
  Forall ok es -> setting_is es P val (f s) (f (fold_left upd es s)).
Proof.
  intros D H1 H2. induction es as [|e es IH] using rev_ind; intros HO.
  - exists None. split; [intros y [] | reflexivity].
  - apply Forall_app in HO. destruct HO as [HO He]. inversion He as [|? ? He' _]; subst.
    destruct (IH HO) as (r & HL & E). rewrite fold_left_app. cbn [fold_left].
    destruct (last_such_snoc P es e r (D e) HL) as [S1 S2]. destruct (D e) as [HP|HP].
    + exists (Some e). split; [exact (S1 HP) | apply H1; assumption].
    + exists r. split; [exact (S2 HP)|]. rewrite H2 by assumption. exact E.
Qed.
Lemma dget_dset p x g : dget p (dset p x g) = x.
Proof. destruct g, p; reflexivity. Qed.
Lemma dget_dset_other p p' x g : p <> p' -> dget p (dset p' x g) = dget p g.
Proof. destruct g, p, p'; intros H; try reflexivity; congruence. Qed.
Lemma dset_xy p x g : gp_x (dset p x g) = gp_x g /\ gp_y (dset p x g) = gp_y g.
Proof. destruct g, p; auto. Qed.
Lemma set_g_g v g : vg_g (set_g v g) = g.
Proof. reflexivity. Qed.

Lemma updated_number F v e p : (named (fst e) (dname p) -> dget p (vg_g (updated F v e)) = fst (n_f64 F (snd e))) /\
  (~ named (fst e) (dname p) -> dget p (vg_g (updated F v e)) = dget p (vg_g v)).
Proof.
  unfold updated. split.
  - intros H. rewrite (proj2 (dtoken_iff _ p) H). rewrite set_g_g. apply dget_dset.
  - intros H. destruct (dtoken (fst e)) as [p'|] eqn:D.
    + rewrite set_g_g. apply dget_dset_other. intros ->. apply H, dtoken_iff, D.
    + destruct (casecmp (fst e) "cache-size"); [destruct (0 <? _); reflexivity|].
      destruct (casecmp (fst e) "query-resolution"); [destruct (fle _ _); reflexivity|].
      destruct (casecmp (fst e) "query-type"); reflexivity.
Qed.
Lemma params_number F v es p : number_is F es (dname p) (dget p (vg_g (fold_left (updated F) es (started v)))).
Proof.
  unfold number_is. replace f_zero with (dget p (vg_g (started v))) by (destruct p; reflexivity).
  apply (fold_last (updated F) (fun v => dget p (vg_g v)) (fun e => named (fst e) (dname p)) (fun w => fst (n_f64 F w)) (fun _ => True)).
  - intros e. apply named_dec.
  - intros s e _. apply updated_number.
  - intros s e _. apply updated_number.
  - apply Forall_forall. auto.
Qed.
Lemma dtoken_other k n : dtoken n = None -> named k n -> dtoken k = None.
Proof. intros H HN. rewrite (dtoken_cong _ _ HN). exact H. Qed.
Lemma params_cache F v es :
  setting_is es (fun e => named (fst e) "cache-size" /\ 0 < fst (n_int F (snd e))) (fun w => fst (n_int F w)) (vg_cache v)
    (vg_cache (fold_left (updated F) es (started v))).
Proof.
  change (vg_cache v) with (vg_cache (started v)).
  apply (fold_last (updated F) vg_cache (fun e => named (fst e) "cache-size" /\ 0 < fst (n_int F (snd e))) (fun w => fst (n_int F w)) (fun _ => True)).
  - intros e. destruct (named_dec (fst e) "cache-size") as [H|H]; [|tauto]. destruct (Z.lt_ge_cases 0 (fst (n_int F (snd e)))); [tauto|].
    right. intros [_ ?]. lia.
  - intros s e _ [HN HP]. unfold updated. rewrite (dtoken_other _ "cache-size" eq_refl HN), (named_cmp _ _ HN).
    destruct (Z.ltb_spec 0 (fst (n_int F (snd e)))); [reflexivity | lia].
  - intros s e _ HP. unfold updated. destruct (dtoken (fst e)); [reflexivity|].
    destruct (casecmp (fst e) "cache-size") eqn:C.
    + destruct (Z.ltb_spec 0 (fst (n_int F (snd e)))); [|reflexivity]. exfalso. apply HP. split; [apply cmp_named, C | assumption].
    + destruct (casecmp (fst e) "query-resolution"); [destruct (fle _ _); reflexivity|].
      destruct (casecmp (fst e) "query-type"); reflexivity.
  - apply Forall_forall. auto.
Qed.
Lemma params_res F v es :
  setting_is es (fun e => named (fst e) "query-resolution" /\ fle f_zero (fst (n_f64 F (snd e))) = true) (fun w => fst (n_f64 F w)) (vg_res v)
    (vg_res (fold_left (updated F) es (started v))).
Proof.
  change (vg_res v) with (vg_res (started v)).
  apply (fold_last (updated F) vg_res (fun e => named (fst e) "query-resolution" /\ fle f_zero (fst (n_f64 F (snd e))) = true) (fun w => fst (n_f64 F w)) (fun _ => True)).
  - intros e. destruct (named_dec (fst e) "query-resolution") as [H|H]; [|tauto]. destruct (fle f_zero (fst (n_f64 F (snd e)))); [tauto|].
    right. intros [_ ?]. discriminate.
  - intros s e _ [HN HP]. unfold updated. rewrite (dtoken_other _ "query-resolution" eq_refl HN), !(named_cong _ _ _ HN), HP. reflexivity.
  - intros s e _ HP. unfold updated. destruct (dtoken (fst e)); [reflexivity|].
    destruct (casecmp (fst e) "cache-size"); [destruct (0 <? _); reflexivity|].
    destruct (casecmp (fst e) "query-resolution") eqn:C.
    + destruct (fle f_zero (fst (n_f64 F (snd e)))) eqn:Q; [|reflexivity]. exfalso. apply HP. split; [apply cmp_named, C | reflexivity].
    + destruct (casecmp (fst e) "query-type"); reflexivity.
  - apply Forall_forall. auto.
Qed.
Lemma kind_of_named w : (exists t, In t ["maxres"; "fixedres"; "waveres"] /\ named w t) -> kind_named w (kind_of w).
Proof.
  intros (t & I & H). unfold kind_of, kind_named. rewrite !(named_cong2 _ _ _ H). cbn [In] in I.
  destruct I as [<-|[<-|[<-|[]]]]; exact H.
Qed.
Lemma params_type F v es :
  setting_is es (fun e => named (fst e) "query-type") kind_of (vg_type v) (vg_type (fold_left (updated F) es (started v))).
Proof.
  change (vg_type v) with (vg_type (started v)).
  apply (fold_last (updated F) vg_type (fun e => named (fst e) "query-type") kind_of (fun _ => True)).
  - intros e. apply named_dec.
  - intros s e _ HN. unfold updated. rewrite (dtoken_other _ "query-type" eq_refl HN), !(named_cong _ _ _ HN). reflexivity.
  - intros s e _ HP. unfold updated. destruct (dtoken (fst e)); [reflexivity|].
    destruct (casecmp (fst e) "cache-size"); [destruct (0 <? _); reflexivity|].
    destruct (casecmp (fst e) "query-resolution"); [destruct (fle _ _); reflexivity|].
    rewrite (not_named_cmp _ _ HP). reflexivity.
  - apply Forall_forall. auto.
Qed.
Lemma params_rest F es : forall v, let v' := fold_left (updated F) es v in
  vg_in v' = vg_in v /\ vg_out v' = vg_out v /\ vg_tmp v' = vg_tmp v /\ vg_params v' = vg_params v /\
  gp_x (vg_g v') = gp_x (vg_g v) /\ gp_y (vg_g v') = gp_y (vg_g v).
Proof.
  induction es as [|e es IH]; intros v v'; [unfold v'; cbn; auto 7|].
  unfold v'. cbn [fold_left]. destruct (IH (updated F v e)) as (A & B & C & D & X & Y). rewrite A, B, C, D, X, Y.
  unfold updated. destruct (dtoken (fst e)) as [p|].
  - pose proof (dset_xy p (fst (n_f64 F (snd e))) (vg_g v)) as [X1 Y1]. cbn. auto 7.
  - destruct (casecmp (fst e) "cache-size"); [destruct (0 <? _); cbn; auto 7|].
    destruct (casecmp (fst e) "query-resolution"); [destruct (fle _ _); cbn; auto 7|].
    destruct (casecmp (fst e) "query-type"); cbn; auto 7.
Qed.
