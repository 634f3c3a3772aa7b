(** C54: the parameter file of the program that limits gradients. *)
From Coq Require Import ZArith Bool Lia Ascii String List.
From Verif Require Import Outcome Float Payload Addr Geom Store Stream GridIngester ErrorHandler VMQuery SpecQuery VsGrader VsRun SpecText StreamFacts SpecParams ParamFacts ToyGrid.
Import ListNotations.
Open Scope string_scope.
Open Scope Z_scope.

Lemma zero_iff x : zero x = true <-> is_zero x.
Proof.
  unfold zero, feq, is_zero, SFeqb, f_zero. destruct x as [b|b| |b m e]; cbn.
  - split; [eexists; reflexivity | reflexivity].
  - destruct b; cbn; split; [discriminate | intros [? H]; discriminate H | discriminate | intros [? H]; discriminate H].
  - split; [discriminate | intros [? H]; discriminate H].
  - destruct b; cbn; split; [discriminate | intros [? H]; discriminate H | discriminate | intros [? H]; discriminate H].
Qed.
Lemma concat_mentions l m : In m l -> mentions (String.concat "" l) m.
Proof.
  induction l as [|x l IH]; [intros []|]. intros [->|I].
  - destruct l as [|y l].
    + exists "", "". cbn. clear. induction m as [|c m IHm]; [reflexivity|]. cbn. f_equal. exact IHm.
    + exists "", (String.concat "" (y :: l)). reflexivity.
  - destruct (IH I) as (a & b & E). destruct l as [|y l]; [destruct I|].
    exists (x ++ a), b. change (String.concat "" (x :: y :: l)) with (x ++ "" ++ String.concat "" (y :: l)). rewrite E.
    rewrite !app_assoc_s. reflexivity.
Qed.
Lemma mentions_trans a b c : mentions a b -> mentions b c -> mentions a c.
Proof. intros (x & y & ->) (u & w & ->). exists (x ++ u), (w ++ y). rewrite !app_assoc_s. reflexivity. Qed.

Lemma understood_fold F v es : Forall (acceptable F) es -> understood F v es (fold_left (updated F) es (started v)).
Proof.
  intros HA. pose proof (params_rest F es (started v)) as (A & B & C & _).
  unfold understood.
  split; [exact (params_number F v es DGradient)|]. split; [exact (params_number F v es DMinVs)|].
  split; [exact (params_number F v es DLon)|]. split; [exact (params_number F v es DLat)|].
  split; [exact (params_number F v es DElev)|]. split; [exact (params_number F v es DLen)|].
  split; [exact (params_number F v es DWidth)|]. split; [exact (params_number F v es DHt)|].
  split; [exact (params_number F v es DRes)|]. split; [apply params_cache|]. split; [apply params_res|].
  split.
  - destruct (params_type F v es) as (r & HL & E). exists r. split; [exact HL|]. destruct r as [e|]; [|exact E].
    rewrite E. apply kind_of_named. destruct HL as (HN & a & b & EQ & _). rewrite Forall_forall in HA.
    specialize (HA e). rewrite EQ in HA. specialize (HA (in_elt _ _ _)). unfold acceptable in HA.
    destruct HA as [(n & I & HN' & _)|[(HN' & _)|[(HN' & _)|(_ & H)]]]; [| | |exact H].
    + exfalso. apply number_name in I. destruct I as [p ->]. unfold named in *. rewrite HN in HN'. destruct p; discriminate HN'.
    + exfalso. unfold named in *. rewrite HN in HN'. discriminate HN'.
    + exfalso. unfold named in *. rewrite HN in HN'. discriminate HN'.
  - split; [exact A|]. split; [exact B | exact C].
Qed.

Lemma number_unique F es n x y : number_is F es n x -> number_is F es n y -> x = y.
Proof.
  intros (r & HL & ->) (r' & HL' & ->).
  destruct r as [e|], r' as [e'|]; cbn in HL, HL'.
  - destruct HL as (P & a & b & -> & H). destruct HL' as (P' & a' & b' & EQ & H').
    assert (X : e = e').
    { revert a' EQ. induction a as [|z a IH]; intros a' EQ.
      - destruct a' as [|z' a']; cbn in EQ; injection EQ as E1 E2; [exact E1|]. exfalso. subst.
        apply (H e'); [apply in_elt | exact P'].
      - destruct a' as [|z' a']; cbn in EQ; injection EQ as E1 E2; [|exact (IH _ E2)]. exfalso. subst.
        apply (H' e); [apply in_elt | exact P]. }
    subst. reflexivity.
  - destruct HL as (P & a & b & -> & H). exfalso. apply (HL' e); [apply in_elt | exact P].
  - destruct HL' as (P & a & b & -> & H). exfalso. apply (HL e'); [apply in_elt | exact P].
  - reflexivity.
Qed.
Definition asks (v : vsgrader) (b : bool) (m : string) : Prop := b = true -> In m (complaints v).
Lemma complaint_in v :
  let g := vg_g v in
  asks v (zero (gp_gradient g)) ("Parameter file must specify 'vs-gradient-max'." ++ NL) /\
  asks v (zero (gp_minVs g)) ("Parameter file must specify 'vs-min'." ++ NL) /\
  asks v (zero (gp_lon g)) ("Parameter file must specify 'swcorner-lon'." ++ NL) /\
  asks v (zero (gp_lat g)) ("Parameter file must specify 'swcorner-lat'." ++ NL) /\
  asks v (zero (gp_elev g)) ("Parameter file must specify 'swcorner-elev'." ++ NL) /\
  asks v (zero (gp_len g)) ("Parameter file must specify 'domain-len'." ++ NL) /\
  asks v (zero (gp_width g)) ("Parameter file must specify 'domain-width'." ++ NL) /\
  asks v (zero (gp_ht g)) "Parameter file must specify 'domain-height'." /\
  asks v (zero (gp_res g)) "Parameter file must specify 'resolution-vert'." /\
  asks v (match vg_type v with MAXRES => false | _ => fle (vg_res v) f_zero end)
    "Parameter file must specify 'query-res' when 'query-type' is not 'maxres'.".
Proof.
  intros g. unfold asks, complaints. fold g. repeat split; intros E; rewrite E; clear; repeat (apply in_or_app; first [left; now left | right]); now left.
Qed.

(** Every file of the required form, with any number of settings in any order and any
    layout: the program works with the last value given for each setting (cache sizes that
    are not positive and negative query resolutions do not count) if nothing is missing.
    Otherwise it stops with a message that names what is missing.  A number that is zero
    counts as missing. *)
Theorem C54_parameters : forall F T v0 es text,
  T (vg_params v0) = Some text -> parameter_file es text -> Forall (acceptable F) es ->
  exists v, understood F v0 es v /\
    (complete v -> readParams F T v0 = Val v) /\
    (forall name shown x, In (name, shown) asked_for -> number_is F es name x -> is_zero x ->
       exists m, readParams F T v0 = Throw m /\ mentions m ("'" ++ shown ++ "'")) /\
    (vg_type v <> MAXRES -> fle (vg_res v) f_zero = true -> exists m, readParams F T v0 = Throw m /\ mentions m "'query-res'").
Proof.
  intros F T v0 es text HT (tail & HS & HC) HA.
  destruct (read_start F T v0 text es tail HT HS HA) as (fuel & b & old & Hb & E).
  destruct (loop_closing F (S fuel) old b (fold_left (updated F) es (started v0)) tail Hb HC) as (s & EL & G).
  rewrite EL in E. cbn [bind] in E. rewrite G in E. cbn [negb] in E.
  set (v := fold_left (updated F) es (started v0)) in *.
  pose proof (understood_fold F v0 es HA) as U. fold v in U. exists v. split; [exact U|].
  assert (A : forall m part, In m (complaints v) -> mentions m part -> exists m, readParams F T v0 = Throw m /\ mentions m part).
  { intros m part I HM. destruct (complaints v) as [|x l] eqn:C; [destruct I|]. exists (String.concat "" (x :: l)).
    split; [exact E|]. eapply mentions_trans; [apply concat_mentions; exact I | exact HM]. }
  destruct (complaint_in v) as (C1 & C2 & C3 & C4 & C5 & C6 & C7 & C8 & C9 & C10).
  split; [|split].
  - intros [HZ HR]. rewrite E. replace (complaints v) with (@nil string); [reflexivity|].
    assert (NZ : forall x, In x [gp_gradient (vg_g v); gp_minVs (vg_g v); gp_lon (vg_g v); gp_lat (vg_g v); gp_elev (vg_g v); gp_len (vg_g v); gp_width (vg_g v); gp_ht (vg_g v); gp_res (vg_g v)] -> zero x = false).
    { intros x I. apply not_true_is_false. intros Q. apply (HZ x I), zero_iff, Q. }
    unfold complaints. rewrite !NZ by (cbn; auto 12). cbn [app].
    destruct HR as [-> | ->]; [reflexivity | destruct (vg_type v); reflexivity].
  - intros name shown x I HX Z. apply zero_iff in Z.
    destruct U as (U1 & U2 & U3 & U4 & U5 & U6 & U7 & U8 & U9 & _).
    unfold asked_for in I. cbn [In] in I.
    repeat (destruct I as [I|I]; [injection I as <- <-|]); [.. | destruct I].
    + rewrite (number_unique _ _ _ _ _ HX U1) in Z. eapply A; [exact (C1 Z)|]. exists "Parameter file must specify ", ("." ++ NL). reflexivity.
    + rewrite (number_unique _ _ _ _ _ HX U2) in Z. eapply A; [exact (C2 Z)|]. exists "Parameter file must specify ", ("." ++ NL). reflexivity.
    + rewrite (number_unique _ _ _ _ _ HX U3) in Z. eapply A; [exact (C3 Z)|]. exists "Parameter file must specify ", ("." ++ NL). reflexivity.
    + rewrite (number_unique _ _ _ _ _ HX U4) in Z. eapply A; [exact (C4 Z)|]. exists "Parameter file must specify ", ("." ++ NL). reflexivity.
    + rewrite (number_unique _ _ _ _ _ HX U5) in Z. eapply A; [exact (C5 Z)|]. exists "Parameter file must specify ", ("." ++ NL). reflexivity.
    + rewrite (number_unique _ _ _ _ _ HX U6) in Z. eapply A; [exact (C6 Z)|]. exists "Parameter file must specify ", ("." ++ NL). reflexivity.
    + rewrite (number_unique _ _ _ _ _ HX U7) in Z. eapply A; [exact (C7 Z)|]. exists "Parameter file must specify ", ("." ++ NL). reflexivity.
    + rewrite (number_unique _ _ _ _ _ HX U8) in Z. eapply A; [exact (C8 Z)|]. exists "Parameter file must specify ", ".". reflexivity.
    + rewrite (number_unique _ _ _ _ _ HX U9) in Z. eapply A; [exact (C9 Z)|]. exists "Parameter file must specify ", ".". reflexivity.
  - intros HT' HR. eapply A; [apply C10; destruct (vg_type v); [congruence | exact HR | exact HR]|].
    exists "Parameter file must specify ", " when 'query-type' is not 'maxres'.". reflexivity.
Qed.
Print Assumptions C54_parameters.

(** ** Files that are refused: nothing is opened or written *)
Section Refused.
Context {DB : Type}.
Variables (EQ : env DB) (E : etree) (F : numfmt) (T : texts) (L : libm).
Variable opens : disk -> string -> bool.
Variable G : gstore (list (addr * payload)) payload.
Local Notation program v fs d := (run EQ E F T L opens G v fs d).

Lemma run_throw v fs d m : readParams F T v = Throw m -> program v fs d = (d, Throw m).
Proof. intros H. unfold run. unfold lift at 1. rewrite H. reflexivity. Qed.
Lemma run_ub v fs d m : readParams F T v = UB m -> program v fs d = (d, UB m).
Proof. intros H. unfold run. unfold lift at 1. rewrite H. reflexivity. Qed.

Theorem C54_no_file : forall v fs d, T (vg_params v) = None ->
  program v fs d = (d, Throw ("Could not open file '" ++ vg_params v ++ "' to read VsGrader parameters.")).
Proof. intros v fs d H. apply run_throw. unfold readParams. cbn [vg_params set_g]. rewrite H. reflexivity. Qed.

Theorem C54_other_program : forall v fs d s name c rest, T (vg_params v) = Some (s ++ name ++ String c rest) ->
  blanks s -> word name -> blank c -> ~ named name "VsGrader" ->
  program v fs d = (d, Throw ("Could not parse '" ++ name ++ "' into 'VsGrader'.")).
Proof.
  intros v fs d s name c rest H Hs Hn Hc HN. apply run_throw. unfold readParams. cbn [vg_params set_g]. rewrite H.
  change (openText (s ++ name ++ String c rest)) with (fresh (s ++ name ++ String c rest)). rewrite getWord_front by assumption.
  rewrite (not_named_cmp _ _ HN). reflexivity.
Qed.

Theorem C54_unknown_setting : forall v fs d es text s k c rest, T (vg_params v) = Some text ->
  starts_with es (s ++ k ++ String c rest) text -> Forall (acceptable F) es ->
  blanks s -> word k -> blank c -> unknown_name k ->
  program v fs d = (d, Throw ("Could not parse '" ++ k ++ "' into a parameter setting.")).
Proof.
  intros v fs d es text s k c rest H HS HA Hs Hk Hc HU. apply run_throw.
  destruct (read_start F T v text es _ H HS HA) as (fuel & b & old & Hb & E1).
  rewrite E1, loop_unknown by assumption. reflexivity.
Qed.

Theorem C54_bad_number : forall v fs d es text s k g s' w c rest name, T (vg_params v) = Some text ->
  starts_with es (s ++ k ++ g ++ "=" ++ s' ++ w ++ String c rest) text -> Forall (acceptable F) es ->
  blanks s -> word k -> gap "=" g -> blanks s' -> word w -> blank c ->
  In name number_names -> named k name -> snd (n_f64 F w) = false ->
  program v fs d = (d, Throw "I/O error while parsing settings.").
Proof.
  intros v fs d es text s k g s' w c rest name H HS HA Hs Hk Hg Hs' Hw Hc I HN HB. apply run_throw.
  destruct (read_start F T v text es _ H HS HA) as (fuel & b & old & Hb & E1).
  destruct (loop_bad_number F fuel old b (fold_left (updated F) es (started v)) s k g s' w c rest name) as (s2 & v2 & E2 & G2); try assumption.
  rewrite E1, E2. cbn [bind]. rewrite G2. reflexivity.
Qed.

Theorem C54_bad_type : forall v fs d es text s k g s' w c rest, T (vg_params v) = Some text ->
  starts_with es (s ++ k ++ g ++ "=" ++ s' ++ w ++ String c rest) text -> Forall (acceptable F) es ->
  blanks s -> word k -> gap "=" g -> blanks s' -> word w -> blank c ->
  named k "query-type" -> (forall t, In t ["maxres"; "fixedres"; "waveres"] -> ~ named w t) ->
  program v fs d = (d, Throw ("Could not parse query type '" ++ w ++ "' into a known type of query.")).
Proof.
  intros v fs d es text s k g s' w c rest H HS HA Hs Hk Hg Hs' Hw Hc HN HB. apply run_throw.
  destruct (read_start F T v text es _ H HS HA) as (fuel & b & old & Hb & E1).
  rewrite E1, loop_bad_type by assumption. reflexivity.
Qed.

(** The file ends before anything follows the closing brace. *)
Theorem C54_unclosed : forall v fs d es text s e, T (vg_params v) = Some text ->
  starts_with es (s ++ e) text -> Forall (acceptable F) es -> blanks s -> unterminated e ->
  program v fs d = (d, Throw "I/O error while parsing settings.").
Proof.
  intros v fs d es text s e H HS HA Hs He. apply run_throw.
  destruct (read_start F T v text es _ H HS HA) as (fuel & b & old & Hb & E1).
  destruct (loop_ended F (S fuel) old b (fold_left (updated F) es (started v)) (s ++ e) Hb) as (s2 & E2 & G2); [exists s, e; auto|].
  rewrite E1, E2. cbn [bind]. rewrite G2. reflexivity.
Qed.

(** In particular: a closing brace that is the very last character of the file. *)
Theorem C54_final_brace_refuted : forall v fs d es text, T (vg_params v) = Some text ->
  starts_with es "}" text -> Forall (acceptable F) es ->
  program v fs d = (d, Throw "I/O error while parsing settings.").
Proof.
  intros v fs d es text H HS HA. apply (C54_unclosed v fs d es text "" "}" H HS HA); [intros c []|].
  right. apply wordb_word. reflexivity.
Qed.

(** A file that ends after 'cache-size =' or 'query-resolution =': a variable that was
    never set is read. *)
Theorem C54_no_value_undefined : forall v fs d es text s k g s', T (vg_params v) = Some text ->
  starts_with es (s ++ k ++ g ++ "=" ++ s') text -> Forall (acceptable F) es ->
  blanks s -> word k -> gap "=" g -> blanks s' -> named k "cache-size" \/ named k "query-resolution" ->
  program v fs d = (d, UB "uninitialised number read").
Proof.
  intros v fs d es text s k g s' H HS HA Hs Hk Hg Hs' HN. apply run_ub.
  destruct (read_start F T v text es _ H HS HA) as (fuel & b & old & Hb & E1).
  rewrite E1, loop_no_value by assumption. reflexivity.
Qed.
End Refused.
Print Assumptions C54_no_file.
Print Assumptions C54_other_program.
Print Assumptions C54_unknown_setting.
Print Assumptions C54_bad_number.
Print Assumptions C54_bad_type.
Print Assumptions C54_unclosed.
Print Assumptions C54_final_brace_refuted.
Print Assumptions C54_no_value_undefined.

(** ** Concrete files *)
Fixpoint typed (es : list (string * string)) : string :=
  match es with
  | [] => ""
  | (k, v) :: es => "  " ++ k ++ " " ++ "=" ++ " " ++ v ++ String "010" (typed es)
  end.
Lemma typed_laid es : forallb (fun e => wordb (fst e) && wordb (snd e)) es = true -> laid_settings es (typed es).
Proof.
  induction es as [|[k v] es IH]; intros H; [constructor|].
  cbn [forallb] in H. apply andb_true_iff in H. destruct H as [H1 H2]. apply andb_true_iff in H1. destruct H1 as [Hk Hv].
  apply (laid_one "  " k " " " " v "010" es (typed es)).
  - intros c [<-|[<-|[]]]; cbn; tauto.
  - apply wordb_word; exact Hk.
  - split; [exists " "%char, ""; split; [reflexivity | cbn; tauto]|]. split; [intros [Q|[]]; discriminate Q | cbn; lia].
  - intros c [<-|[]]; cbn; tauto.
  - apply wordb_word; exact Hv.
  - cbn; tauto.
  - apply IH; exact H2.
Qed.
Lemma typed_start es tail : forallb (fun e => wordb (fst e) && wordb (snd e)) es = true ->
  starts_with es tail ("VsGRADER" ++ " " ++ "{" ++ typed es ++ tail).
Proof.
  intros H. exists "", "VsGRADER", " ", (typed es). split; [reflexivity|]. split; [intros c []|].
  split; [apply wordb_word; reflexivity|]. split; [reflexivity|].
  split; [|apply typed_laid, H].
  split; [exists " "%char, ""; split; [reflexivity | cbn; tauto]|]. split; [intros [Q|[]]; discriminate Q | cbn; lia].
Qed.
Ltac known_number n := left; exists n; split; [cbn; tauto | split; vm_compute; reflexivity].
Ltac known_setting :=
  first [ known_number "vs-gradient-max" | known_number "vs-min" | known_number "swcorner-lon" | known_number "swcorner-lat"
        | known_number "swcorner-elev" | known_number "domain-length" | known_number "domain-width" | known_number "domain-height"
        | known_number "resolution-vert"
        | right; left; split; vm_compute; reflexivity
        | right; right; left; split; vm_compute; reflexivity
        | right; right; right; split; [vm_compute; reflexivity|];
            first [ exists "maxres"; split; [cbn; tauto | vm_compute; reflexivity]
                  | exists "fixedres"; split; [cbn; tauto | vm_compute; reflexivity]
                  | exists "waveres"; split; [cbn; tauto | vm_compute; reflexivity] ] ].

(** Two values for the smallest speed, an ignored cache size, a resolution. *)
Definition sample (elev : string) : list (string * string) :=
  [("vs-min", "100"); ("Vs-Gradient-Max", "0.5"); ("swcorner-lon", "-122.0"); ("swcorner-lat", "37.5"); ("swcorner-elev", elev);
   ("domain-length", "4000"); ("domain-width", "2000"); ("domain-height", "1000"); ("resolution-vert", "100");
   ("cache-size", "256"); ("cache-size", "-1"); ("query-type", "WaveRes"); ("query-resolution", "0.5"); ("vs-min", "200")].
Definition sample_text (elev tail : string) : string := "VsGRADER" ++ " " ++ "{" ++ typed (sample elev) ++ tail.
Definition sample_file (text : string) : texts := fun name => if String.eqb name "grade.par" then Some text else None.
Definition sample_run : vsgrader := mkVsg "in.etree" "out.etree" "tmp.etree" "grade.par" 128 f_zero MAXRES
  (mkGparams f_zero f_zero f_zero f_zero f_zero f_zero f_zero f_zero f_zero f_zero f_zero).
Lemma sample_acceptable : Forall (acceptable toy_fmt) (sample "1").
Proof. unfold sample. repeat (apply Forall_cons; [known_setting|]). apply Forall_nil. Qed.
Lemma sample_acceptable0 : Forall (acceptable toy_fmt) (sample "0").
Proof. unfold sample. repeat (apply Forall_cons; [known_setting|]). apply Forall_nil. Qed.
Lemma closing_line : closing ("}" ++ String "010" "").
Proof. exists "", "010"%char, "". split; [intros c []|]. split; [cbn; tauto | reflexivity]. Qed.

Example C54_parameters_example :
  parameter_file (sample "1") (sample_text "1" ("}" ++ String "010" "")) /\
  readParams toy_fmt (sample_file (sample_text "1" ("}" ++ String "010" ""))) sample_run =
    Val (mkVsg "in.etree" "out.etree" "tmp.etree" "grade.par" 256 (dec64 5 1) WAVERES
      (mkGparams (dec64 5 1) (i2f64 200) (i2f64 (-122)) (dec64 375 1) (i2f64 1) (i2f64 4000) (i2f64 2000) (i2f64 1000) (i2f64 100) f_zero f_zero)).
Proof.
  split.
  - eexists. split; [apply typed_start; reflexivity | apply closing_line].
  - vm_compute. reflexivity.
Qed.

(** A corner at sea level cannot be asked for: a file that gives every number, with
    elevation 0, is refused because the elevation is missing. *)
Theorem C54_sea_level_refuted : exists F T v es text m,
  T (vg_params v) = Some text /\ parameter_file es text /\ Forall (acceptable F) es /\
  Forall (fun n => Exists (fun e => named (fst e) n) es) number_names /\
  In ("swcorner-elev", "0") es /\
  readParams F T v = Throw m /\ mentions m "Parameter file must specify 'swcorner-elev'.".
Proof.
  exists toy_fmt, (sample_file (sample_text "0" ("}" ++ String "010" ""))), sample_run, (sample "0"), (sample_text "0" ("}" ++ String "010" "")).
  eexists. split; [reflexivity|]. split; [eexists; split; [apply typed_start; reflexivity | apply closing_line]|].
  split; [exact sample_acceptable0|]. split; [|split; [cbn; tauto|]].
  - unfold number_names, sample.
    repeat (apply Forall_cons; [repeat first [apply Exists_cons_hd; reflexivity | apply Exists_cons_tl]|]). apply Forall_nil.
  - split; [vm_compute; reflexivity|]. exists "", NL. reflexivity.
Qed.
Print Assumptions C54_sea_level_refuted.

(** Concrete files for the refusals. *)
Example C54_unknown_setting_example : starts_with (sample "1") ("" ++ "vsmin" ++ String " " "= 100 }") (sample_text "1" "vsmin = 100 }") /\
  unknown_name "vsmin".
Proof.
  split; [apply typed_start; reflexivity|]. intros n I. cbn [In app number_names] in I.
  repeat (destruct I as [<-|I]; [discriminate|]). destruct I.
Qed.
Example C54_bad_number_example :
  starts_with (sample "1") ("" ++ "vs-min" ++ " " ++ "=" ++ " " ++ "fast" ++ String "010" "}") (sample_text "1" ("vs-min = fast" ++ String "010" "}")) /\
  snd (n_f64 toy_fmt "fast") = false.
Proof. split; [apply typed_start; reflexivity | reflexivity]. Qed.
Example C54_bad_type_example :
  starts_with (sample "1") ("" ++ "query-type" ++ " " ++ "=" ++ " " ++ "nearest" ++ String " " "}") (sample_text "1" "query-type = nearest }") /\
  forall t, In t ["maxres"; "fixedres"; "waveres"] -> ~ named "nearest" t.
Proof.
  split; [apply typed_start; reflexivity|]. intros t I. cbn [In] in I.
  repeat (destruct I as [<-|I]; [discriminate|]). destruct I.
Qed.
Example C54_final_brace_example : starts_with (sample "1") "}" (sample_text "1" "}") /\
  readParams toy_fmt (sample_file (sample_text "1" "}")) sample_run = Throw "I/O error while parsing settings.".
Proof. split; [apply typed_start; reflexivity | vm_compute; reflexivity]. Qed.
Example C54_no_value_example : starts_with (sample "1") ("" ++ "cache-size" ++ " " ++ "=" ++ "") (sample_text "1" "cache-size =") /\
  readParams toy_fmt (sample_file (sample_text "1" "cache-size =")) sample_run = UB "uninitialised number read".
Proof. split; [apply typed_start; reflexivity | vm_compute; reflexivity]. Qed.
Example C54_other_program_example : sample_file "VsGraders { }" "grade.par" = Some ("" ++ "VsGraders" ++ String " " "{ }") /\
  ~ named "VsGraders" "VsGrader" /\ sample_file "" "other.par" = None.
Proof. split; [reflexivity|]. split; [discriminate | reflexivity]. Qed.
