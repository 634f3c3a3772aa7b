(** Proofs about the C example program. *)
From Coq Require Import ZArith Bool Lia Reals String Ascii List.
From Verif Require Import Outcome Float Payload Addr SpecOct SpecGeom Geom GeomFacts ErrorHandler VMQuery SpecQuery SpecHist
  QueryFacts QueryProof QueryHist QueryIndep Stream GetOpt QueryApp SpecText StreamFacts SpecApp AppFacts AppMain
  CApi CExample SpecCExample.
Import ListNotations.
Open Scope Z_scope.

(** ** Options *)
Lemma strcpy_short v : (String.length v < 256)%nat -> strcpy v = Val v.
Proof. intros H. unfold strcpy. apply Nat.ltb_lt in H. rewrite H. reflexivity. Qed.
Lemma strcpy_long v : (256 <= String.length v)%nat -> exists y, strcpy v = UB y.
Proof. intros H. unfold strcpy. destruct (Nat.ltb_spec (String.length v) 256); [lia | eauto]. Qed.

Definition ev_short (o : optev) : Prop := match o with Arg _ v => (String.length v < 256)%nat | _ => True end.
Lemma cOption1_short T n c w o : ev_short o -> cOption1 T n c w o = Val (option1 T n c w o).
Proof.
  intros H. destruct c as [i o' d e l t r z s]. destruct o as [k|k v|]; cbn [cOption1 option1 ev_short] in *.
  - destruct (Ascii.eqb k "h"); reflexivity.
  - rewrite (strcpy_short v H). cbn [bind].
    repeat match goal with |- context [if ?b then _ else _] => destruct b; [reflexivity|] end. reflexivity.
  - reflexivity.
Qed.
Lemma cOptionLoop_short T l : Forall ev_short l -> forall n c w, cOptionLoop T n c w l = Val (optionLoop T n c w l).
Proof.
  induction 1 as [|o l H HL IH]; intros n c w; cbn [cOptionLoop optionLoop]; [reflexivity|].
  rewrite cOption1_short by exact H. cbn [bind]. destruct (option1 T n c w o) as [x|[[n' c'] w']]; [reflexivity | apply IH].
Qed.
Lemma length_string l : String.length (string_of_list_ascii l) = List.length l.
Proof. induction l as [|c l IH]; cbn; congruence. Qed.
Lemma length_chars s : List.length (chars s) = String.length s.
Proof. induction s as [|c s IH]; cbn; congruence. Qed.

Lemma cluster_short opts cs : (List.length cs < 256)%nat -> Forall ev_short (fst (cluster opts cs)).
Proof.
  induction cs as [|c cs IH]; intros H; cbn [cluster]; [constructor|]. cbn [List.length] in H.
  destruct (opts c) as [[|]|].
  - destruct cs as [|c' cs']; cbn [fst]; constructor; [|constructor]. cbn [ev_short]. rewrite length_string. cbn [List.length] in *. lia.
  - destruct (cluster opts cs) as [l p]. cbn [fst] in *. constructor; [exact I | apply IH; lia].
  - destruct (cluster opts cs) as [l p]. cbn [fst] in *. constructor; [exact I | apply IH; lia].
Qed.
Lemma getopts_short opts args : Forall short_word args -> forall p, Forall ev_short (getopts opts p args).
Proof.
  induction 1 as [|a args H HL IH]; intros p; cbn [getopts].
  - destruct p; repeat constructor.
  - destruct p as [c|]; [constructor; [exact H | apply IH]|].
    destruct (String.eqb a "--"); [constructor|].
    destruct (chars a) as [|d [|c cs]] eqn:Q; [apply IH..|].
    destruct (Ascii.eqb d dash); [|apply IH].
    pose proof (cluster_short opts (c :: cs)) as CS.
    assert (L : (List.length (c :: cs) < 256)%nat).
    { unfold short_word in H. rewrite <- length_chars, Q in H. cbn [List.length] in *. lia. }
    specialize (CS L). destruct (cluster opts (c :: cs)) as [l p]. cbn [fst] in CS. apply Forall_app. split; [exact CS | apply IH].
Qed.
Lemma length_0 s : (String.length s =? 0)%nat = String.eqb s "".
Proof. destruct s; reflexivity. Qed.

Lemma cParse_short T args : Forall short_word args -> cParseArgs T args = Val (parseArgs T args).
Proof.
  intros H. unfold cParseArgs, parseArgs. change "c:d:e:hi:l:o:r:s:t:"%string with query_options.
  rewrite cOptionLoop_short by (apply getopts_short, H). cbn [bind]. change cConfig0 with config0.
  destruct (optionLoop _ _ _ _ _) as [x|[[n c] w]]; [reflexivity|]. rewrite !length_0. reflexivity.
Qed.

(** A value that is too long. *)
Lemma cOptionLoop_words T kvs rest : Forall (fun kv => known_letter (fst kv) /\ (text_letter (fst kv) -> short_word (snd kv))) kvs ->
  forall n c w, exists n' c' w', cOptionLoop T n c w (map (fun kv => Arg (fst kv) (snd kv)) kvs ++ rest) = cOptionLoop T n' c' w' rest.
Proof.
  induction 1 as [|[k v] kvs [HK HS] HL IH]; intros n c w; cbn [map app]; [eauto|].
  cbn [cOptionLoop]. cbn [fst snd] in *.
  assert (Q : exists n1 c1 w1, cOption1 T n c w (Arg k v) = Val (inr (n1, c1, w1))).
  { destruct c as [i o' d e l t r z s]. unfold known_letter in HK. cbn [In] in HK. unfold cOption1.
    destruct HK as [<-|[<-|[<-|[<-|[<-|[<-|[<-|[<-|[<-|[]]]]]]]]]]; cbn [Ascii.eqb Bool.eqb];
      try rewrite strcpy_short by (apply HS; unfold text_letter; cbn [In]; tauto); cbn [bind]; eauto. }
  destruct Q as (n1 & c1 & w1 & ->). cbn [bind]. apply IH.
Qed.
Lemma cOption1_long T n c w k v : text_letter k -> (256 <= String.length v)%nat -> exists y, cOption1 T n c w (Arg k v) = UB y.
Proof.
  intros HK HV. destruct (strcpy_long v HV) as [y Q]. exists y. destruct c as [i o' d e l t r z s]. unfold cOption1.
  unfold text_letter in HK. cbn [In] in HK.
  destruct HK as [<-|[<-|[<-|[<-|[<-|[<-|[]]]]]]]; cbn [Ascii.eqb Bool.eqb]; rewrite Q; reflexivity.
Qed.

(** ** Reading *)
Section Read.
Variables (F : numfmt) (to_end : string -> bool).
Definition input (s : string) : instream := mkInput (chars s) false.

Lemma skip_laid w ws t e : laid_out (w :: ws) t -> exists t1 c t', skipws (chars (t ++ e)) = chars (w ++ String c (t' ++ e)) /\
  t1 = (w ++ String c t')%string /\ blank c /\ word w /\ laid_out ws t'.
Proof.
  intros H. inversion H as [|s w0 c rest ws0 Hs Hw Hc Hr]; subst. exists (w ++ String c rest)%string, c, rest.
  split; [|auto]. rewrite !app_assoc_s, chars_app, skipws_blanks by exact Hs. cbn [append].
  destruct Hw as [Hw1 Hw2]. destruct w as [|c0 w]; [congruence|]. cbn [list_ascii_of_string append skipws].
  rewrite (proj2 (isspace_nonblank c0)) by (apply Hw2; left; reflexivity). reflexivity.
Qed.
Lemma take_laid w c r : word w -> blank c -> takeword (chars (w ++ String c r)) = (chars w, c :: chars r).
Proof.
  intros [_ Hw] Hc. rewrite chars_app, takeword_word by exact Hw. cbn [list_ascii_of_string takeword].
  rewrite (proj2 (isspace_blank c) Hc). cbn [fst snd]. rewrite app_nil_r. reflexivity.
Qed.
Lemma scan_some s r w t : skipws (in_rest s) = r -> r <> [] -> takeword r = (w, t) ->
  scanNum F to_end s = match n_f64 F (string_of_list_ascii w) with
         | (v, true) => (mkInput t (in_feof s || none t), Some v)
         | (_, false) => (mkInput r (in_feof s || (none t && to_end (string_of_list_ascii w))), None)
         end.
Proof. intros H N Q. unfold scanNum. rewrite H. destruct r; [congruence|]. rewrite Q. reflexivity. Qed.
Lemma word_not_nil w r : word w -> chars (w ++ r) <> [].
Proof. intros [H _]. destruct w; [congruence | discriminate]. Qed.

Lemma scan_laid w ws t e v : laid_out (w :: ws) t -> numeral F w v ->
  exists t', scanNum F to_end (input (t ++ e)) = (input (t' ++ e), Some v) /\ laid_out ws t'.
Proof.
  intros H Q. destruct (skip_laid w ws t e H) as (t1 & c & t' & K & _ & Hc & Hw & Hl).
  exists (String c t'). split; [|apply laid_blank_front; assumption].
  rewrite (scan_some (input (t ++ e)) _ _ _ K (word_not_nil _ _ Hw) (take_laid _ _ _ Hw Hc)).
  rewrite string_of_list_ascii_of_string, Q. reflexivity.
Qed.
Lemma unreadable w : ~ readable F w -> exists v, n_f64 F w = (v, false).
Proof.
  intros H. destruct (n_f64 F w) as [v [|]] eqn:Q; [|eauto]. exfalso. apply H. exists v. exact Q.
Qed.
Lemma scan_bad w ws t e : laid_out (w :: ws) t -> ~ readable F w ->
  exists t', scanNum F to_end (input (t ++ e)) = (input (t' ++ e), None) /\ laid_out (w :: ws) t'.
Proof.
  intros H Q. destruct (skip_laid w ws t e H) as (t1 & c & t' & K & _ & Hc & Hw & Hl).
  exists (w ++ String c t')%string. split.
  - rewrite (scan_some (input (t ++ e)) _ _ _ K (word_not_nil _ _ Hw) (take_laid _ _ _ Hw Hc)).
    rewrite string_of_list_ascii_of_string. destruct (unreadable w Q) as [v ->]. cbn [none andb orb in_feof input].
    unfold input. rewrite app_assoc_s. reflexivity.
  - apply (laid_word "" w c t' ws); try assumption. intros x [].
Qed.
Lemma scan_empty t : blanks t -> scanNum F to_end (input t) = (mkInput [] true, None).
Proof.
  intros H. unfold scanNum. cbn [in_rest input]. rewrite <- (app_nil_r (chars t)), skipws_blanks by exact H. reflexivity.
Qed.
Lemma scan_last t w : blanks t -> word w -> scanNum F to_end (input (t ++ w)) =
  match n_f64 F w with
  | (v, true) => (mkInput [] true, Some v)
  | (_, false) => (mkInput (chars w) (to_end w), None)
  end.
Proof.
  intros Ht Hw.
  assert (K : skipws (in_rest (input (t ++ w))) = chars w).
  { cbn [in_rest input]. rewrite chars_app, skipws_blanks by exact Ht. destruct Hw as [N Hw]. destruct w as [|c w]; [congruence|].
    cbn [list_ascii_of_string skipws]. rewrite (proj2 (isspace_nonblank c)) by (apply Hw; left; reflexivity). reflexivity. }
  assert (N : chars w <> []) by (destruct Hw as [N _]; destruct w; [congruence | discriminate]).
  assert (TW : takeword (chars w) = (chars w, [])).
  { rewrite <- (app_nil_r (chars w)) at 1. rewrite takeword_word by (exact (proj2 Hw)). cbn [takeword fst snd].
    rewrite app_nil_r. reflexivity. }
  rewrite (scan_some _ _ _ _ K N TW), string_of_list_ascii_of_string. reflexivity.
Qed.

Lemma scan3_eq old s : scan3 F to_end old s =
  match scanNum F to_end s with
  | (s1, None) => (s1, overwrite old [])
  | (s1, Some a) =>
      match scanNum F to_end s1 with
      | (s2, None) => (s2, overwrite old [a])
      | (s2, Some b) =>
          match scanNum F to_end s2 with
          | (s3, None) => (s3, overwrite old [a; b])
          | (s3, Some c) => (s3, (a, b, c))
          end
      end
  end.
Proof.
  destruct old as [[lon lat] elev]. unfold scan3, overwrite.
  destruct (scanNum F to_end s) as [s1 [a|]]; [|reflexivity].
  destruct (scanNum F to_end s1) as [s2 [b|]]; [|reflexivity].
  destruct (scanNum F to_end s2) as [s3 [c|]]; reflexivity.
Qed.

Lemma scan3_location a b c ws t e lon lat elev old : laid_out (a :: b :: c :: ws) t ->
  numeral F a lon -> numeral F b lat -> numeral F c elev ->
  exists t', scan3 F to_end old (input (t ++ e)) = (input (t' ++ e), (lon, lat, elev)) /\ laid_out ws t'.
Proof.
  intros H A B C. rewrite scan3_eq.
  destruct (scan_laid _ _ t e _ H A) as (t1 & -> & H1). destruct (scan_laid _ _ t1 e _ H1 B) as (t2 & -> & H2).
  destruct (scan_laid _ _ t2 e _ H2 C) as (t3 & -> & H3). eauto.
Qed.

(** At the end of the file. *)
Lemma scan_end t e : blanks t -> e = ""%string \/ word e /\ (readable F e \/ to_end e = true) ->
  exists r o, scanNum F to_end (input (t ++ e)) = (mkInput r true, o) /\ (o <> None -> r = []).
Proof.
  intros Ht [->|[Hw He]].
  - rewrite append_nil_r, scan_empty by exact Ht. exists [], None. split; [reflexivity | congruence].
  - rewrite scan_last by assumption. destruct (n_f64 F e) as [v [|]] eqn:Q; [eauto|].
    destruct He as [[v' He]|He]; [unfold numeral in He; congruence|]. rewrite He. exists (chars e), None. split; [reflexivity | congruence].
Qed.
Lemma scan3_end rest t e old : laid_out rest t -> (List.length rest < 3)%nat -> Forall (readable F) rest ->
  e = ""%string \/ word e /\ (readable F e \/ to_end e = true) ->
  in_feof (fst (scan3 F to_end old (input (t ++ e)))) = true.
Proof.
  intros H L R HE. rewrite scan3_eq.
  assert (OV : forall r (o : option f64), (o <> None -> r = []) -> o <> None -> scanNum F to_end (mkInput r true) = (mkInput [] true, None))
    by (intros r o A B; rewrite (A B); reflexivity).
  destruct rest as [|a [|b [|? ?]]]; [| | |cbn in L; lia].
  - assert (Bt : blanks t) by (inversion H; assumption).
    destruct (scan_end t e Bt HE) as (r & o & -> & K). destruct o as [v|]; [|reflexivity].
    rewrite (OV r (Some v) K) by discriminate. reflexivity.
  - inversion R as [|? ? [va A] _]; subst. destruct (scan_laid _ _ t e _ H A) as (t1 & -> & H1).
    assert (Bt : blanks t1) by (inversion H1; assumption).
    destruct (scan_end t1 e Bt HE) as (r & o & -> & K). destruct o as [v|]; [|reflexivity].
    rewrite (OV r (Some v) K) by discriminate. reflexivity.
  - inversion R as [|? ? [va A] R1]; subst. inversion R1 as [|? ? [vb B] _]; subst.
    destruct (scan_laid _ _ t e _ H A) as (t1 & -> & H1). destruct (scan_laid _ _ t1 e _ H1 B) as (t2 & -> & H2).
    assert (Bt : blanks t2) by (inversion H2; assumption).
    destruct (scan_end t2 e Bt HE) as (r & o & -> & K). destruct o as [v|]; reflexivity.
Qed.

(** A word that cannot be read, next. *)
Definition jam (s : instream) (bad e : string) : Prop :=
  (exists more t, s = input (t ++ e) /\ laid_out (bad :: more) t) \/
  (exists t, s = input (t ++ e) /\ blanks t /\ e = bad /\ word bad /\ to_end bad = false).
Lemma scan_jam s bad e : ~ readable F bad -> jam s bad e ->
  exists s', scanNum F to_end s = (s', None) /\ jam s' bad e /\ in_feof s' = false.
Proof.
  intros N [(more & t & -> & H)|(t & -> & Ht & -> & Hw & HT)].
  - destruct (scan_bad _ _ t e H N) as (t' & -> & H'). eexists. split; [reflexivity|]. split; [left; eauto | reflexivity].
  - rewrite scan_last by assumption. destruct (unreadable bad N) as [v ->]. eexists. split; [reflexivity|].
    split; [|exact HT]. right. exists ""%string. split; [unfold input; cbn [append]; rewrite HT; reflexivity|].
    split; [intros x []|]. auto.
Qed.
Lemma scan3_jam s bad e old : ~ readable F bad -> jam s bad e ->
  exists s', scan3 F to_end old s = (s', old) /\ jam s' bad e /\ in_feof s' = false.
Proof.
  intros N J. destruct (scan_jam s bad e N J) as (s' & Q & J' & H). exists s'. rewrite scan3_eq, Q.
  destruct old as [[lon lat] elev]. auto.
Qed.
Lemma scan3_jams nums bad more t e vs old : ~ readable F bad -> Forall2 (numeral F) nums vs -> (List.length nums < 3)%nat ->
  unterminated e ->
  (laid_out (nums ++ bad :: more) t \/ laid_out nums t /\ e = bad /\ bad <> ""%string /\ to_end bad = false) ->
  exists s', scan3 F to_end old (input (t ++ e)) = (s', overwrite old vs) /\ jam s' bad e /\ in_feof s' = false.
Proof.
  intros N V L U H.
  assert (G : forall t, (laid_out (bad :: more) t \/ laid_out [] t /\ e = bad /\ bad <> ""%string /\ to_end bad = false) -> jam (input (t ++ e)) bad e).
  { intros t0 [H0|(H0 & -> & NE & HT)]; [left; eauto|]. right. exists t0. split; [reflexivity|].
    split; [inversion H0; assumption|]. split; [reflexivity|]. split; [|exact HT]. destruct U as [U|U]; [congruence | exact U]. }
  assert (ST : forall w v ws t0, numeral F w v -> (laid_out ((w :: ws) ++ bad :: more) t0 \/ laid_out (w :: ws) t0 /\ e = bad /\ bad <> ""%string /\ to_end bad = false) ->
    exists t1, scanNum F to_end (input (t0 ++ e)) = (input (t1 ++ e), Some v) /\
      (laid_out (ws ++ bad :: more) t1 \/ laid_out ws t1 /\ e = bad /\ bad <> ""%string /\ to_end bad = false)).
  { intros w v ws t0 Q [H0|(H0 & K)].
    - destruct (scan_laid _ _ t0 e v H0 Q) as (t1 & -> & H1). eauto.
    - destruct (scan_laid _ _ t0 e v H0 Q) as (t1 & -> & H1). eauto. }
  rewrite scan3_eq. inversion V as [|a va ? ? A V1]; subst.
  - destruct (scan_jam _ _ _ N (G _ H)) as (s' & -> & J & Fe). eauto.
  - destruct (ST _ _ _ _ A H) as (t1 & -> & H1). inversion V1 as [|b vb ? ? B V2]; subst.
    + destruct (scan_jam _ _ _ N (G _ H1)) as (s' & -> & J & Fe). eauto.
    + destruct (ST _ _ _ _ B H1) as (t2 & -> & H2). inversion V2 as [|c vc ? ? C V3]; subst; [|cbn in L; lia].
      destruct (scan_jam _ _ _ N (G _ H2)) as (s' & -> & J & Fe). eauto.
Qed.

(** The locations handled by the loop. *)
Inductive feeds : list location -> location -> instream -> location -> instream -> Prop :=
| feeds_nil : forall l s, feeds [] l s l s
| feeds_cons : forall l ls s l' s', in_feof s = false ->
    feeds ls (snd (scan3 F to_end l s)) (fst (scan3 F to_end l s)) l' s' -> feeds (l :: ls) l s l' s'.
Lemma feeds_app a b l1 s1 l2 s2 l3 s3 : feeds a l1 s1 l2 s2 -> feeds b l2 s2 l3 s3 -> feeds (a ++ b) l1 s1 l3 s3.
Proof. induction 1; intros H'; cbn [app]; [exact H' | constructor; auto]. Qed.

Lemma last_cons (l d : location) ls : last (l :: ls) d = last ls l.
Proof.
  revert l d. induction ls as [|a ls IH]; intros l d; [reflexivity|].
  change (last (l :: a :: ls) d) with (last (a :: ls) d). rewrite IH. symmetry. apply IH.
Qed.

(** After the locations of the file have been read and handled: the variables still hold
    the last one, and the next read starts behind it. *)
Lemma feeds_located ws rest e ls : located F ws ls -> forall t old, laid_out (ws ++ rest) t ->
  exists t', laid_out rest t' /\
    feeds ls (snd (scan3 F to_end old (input (t ++ e)))) (fst (scan3 F to_end old (input (t ++ e))))
      (snd (scan3 F to_end (last ls old) (input (t' ++ e)))) (fst (scan3 F to_end (last ls old) (input (t' ++ e)))).
Proof.
  induction 1 as [|a b c lon lat elev ws ls A B C HL IH]; intros t old H.
  - exists t. split; [exact H | constructor].
  - cbn [app] in H. destruct (scan3_location a b c (ws ++ rest) t e lon lat elev old H A B C) as (t1 & -> & H1). cbn [fst snd].
    destruct (IH t1 (lon, lat, elev) H1) as (t' & H' & K). exists t'. split; [exact H'|].
    rewrite last_cons. constructor; [reflexivity | exact K].
Qed.
Lemma feeds_complete text ls : complete F to_end text ls -> exists l' s', in_feof s' = true /\
  feeds ls (snd (scan3 F to_end (f_zero, f_zero, f_zero) (input text))) (fst (scan3 F to_end (f_zero, f_zero, f_zero) (input text))) l' s'.
Proof.
  intros (ws & rest & t & e & -> & H & U & L & N & R & HE).
  destruct (feeds_located ws rest e ls L t (f_zero, f_zero, f_zero) H) as (t' & H' & K).
  eexists. eexists. split; [|exact K]. apply (scan3_end rest); try assumption.
  destruct U as [U|U]; [left; exact U|]. destruct HE as [HE|HE]; [left; exact HE | right; split; assumption].
Qed.
Lemma feeds_jammed text ls loc : jammed F to_end text ls loc -> forall m, exists s', in_feof s' = false /\
  feeds (ls ++ repeat loc m) (snd (scan3 F to_end (f_zero, f_zero, f_zero) (input text))) (fst (scan3 F to_end (f_zero, f_zero, f_zero) (input text))) loc s'.
Proof.
  intros (ws & nums & bad & more & t & e & vs & -> & U & L & V & N & B & -> & H) m.
  set (old := (f_zero, f_zero, f_zero)).
  assert (G : exists s', in_feof s' = false /\ jam s' bad e /\
    feeds ls (snd (scan3 F to_end old (input (t ++ e)))) (fst (scan3 F to_end old (input (t ++ e)))) (overwrite (last ls old) vs) s').
  { destruct H as [H|(H & HR)].
    - destruct (feeds_located ws _ e ls L t old H) as (t' & H' & K).
      destruct (scan3_jams nums bad more t' e vs (last ls old) B V N U (or_introl H')) as (s' & Q & J & Fe).
      exists s'. rewrite Q in K. auto.
    - destruct (feeds_located ws _ e ls L t old H) as (t' & H' & K).
      destruct (scan3_jams nums bad more t' e vs (last ls old) B V N U (or_intror (conj H' HR))) as (s' & Q & J & Fe).
      exists s'. rewrite Q in K. auto. }
  destruct G as (s' & Fe & J & K). set (loc := overwrite _ vs) in *.
  assert (R : forall m s, jam s bad e -> in_feof s = false -> exists s'', in_feof s'' = false /\ feeds (repeat loc m) loc s loc s'').
  { clear - B. induction m as [|m IH]; intros s J Fe; cbn [repeat]; [exists s; split; [exact Fe | constructor]|].
    destruct (scan3_jam s bad e loc B J) as (s1 & Q & J1 & F1). destruct (IH s1 J1 F1) as (s2 & F2 & K2).
    exists s2. split; [exact F2|]. constructor; [exact Fe|]. rewrite Q. exact K2. }
  destruct (R m s' J Fe) as (s2 & F2 & K2). exists s2. split; [exact F2|]. exact (feeds_app _ _ _ _ _ _ _ _ K K2).
Qed.
Lemma feeds_split a : forall l b l1 s1 l3 s3, feeds (a ++ l :: b) l1 s1 l3 s3 ->
  exists s2, feeds a l1 s1 l s2 /\ in_feof s2 = false.
Proof.
  induction a as [|x a IH]; intros l b l1 s1 l3 s3 H; cbn [app] in H; inversion H as [|? ? ? ? ? HS HF]; subst.
  - exists s1. split; [constructor | exact HS].
  - destruct (IH _ _ _ _ _ _ HF) as (s2 & K & F2). exists s2. split; [constructor; assumption | exact F2].
Qed.
End Read.

(** ** Calls of the C interface *)
Section Run.
Context {DB : Type}.
Variables (E : env DB) (T : texts) (S : os) (to_end : string -> bool) (g : libm).
Notation world := (world DB).
Notation hq := (QueryPtr 0).
Notation hh := (HandlerPtr 0).

(** The object, and the log files. *)
Definition has (w : world) (q : qstate DB) (fs : files) : Prop := w_objs w 0%nat = Some q /\ w_files w = fs.
Lemma has_replace (w : world) q fs : has (replace w 0 q fs) q fs.
Proof. split; reflexivity. Qed.
Lemma on_query_has what m (w : world) q fs q' fs' : has w q fs -> m q fs = Val (q', fs') ->
  exists w', on_query what m hq w = Val (w', status_code (eh_status (q_err q'))) /\ has w' q' fs'.
Proof.
  intros [H1 H2] Q. unfold on_query. rewrite H1, H2, Q. cbn [bind]. eexists. split; [reflexivity | apply has_replace].
Qed.
Lemma message_has s (w : world) q fs e : has w q fs -> message s hh w e = Val (w, (e ++ [Said (eh_msg (q_err q) ++ s)])%list).
Proof. intros [H1 H2]. unfold message, cencalvm_error_message. rewrite H1. reflexivity. Qed.
Lemma status_has (w : world) q fs : has w q fs -> cencalvm_error_status hh w = Val (w, status_code (eh_status (q_err q))).
Proof. intros [H1 H2]. unfold cencalvm_error_status. rewrite H1. reflexivity. Qed.
Lemma query_has (w : world) q fs v lon lat elev q' fs' v' : has w q fs -> query E q fs (Some v) lon lat elev = Val (q', fs', v') ->
  exists w', cencalvm_query E (Some v) lon lat elev hq w = Val (w', status_code (eh_status (q_err q')), Some v') /\ has w' q' fs'.
Proof.
  intros [H1 H2] Q. unfold cencalvm_query. rewrite H1, H2, Q. cbn [bind]. eexists. split; [reflexivity | apply has_replace].
Qed.
Lemma reset_has (w : world) q fs : has w q fs ->
  exists w', cencalvm_error_resetStatus hh w = Val (w', VMERR_OK) /\ has w' (with_err q (eh_reset (q_err q))) fs.
Proof.
  intros [H1 H2]. unfold cencalvm_error_resetStatus, on_handler. rewrite H1, H2. eexists. split; [reflexivity | apply has_replace].
Qed.
Lemma or_quit_ok e call next (w w' : world) : call w = Val (w', 0) -> or_quit hh e call next w = next w'.
Proof. intros Q. unfold or_quit. rewrite Q. reflexivity. Qed.
Lemma or_quit_bad e call next (w w' : world) z q fs : call w = Val (w', z) -> z <> 0 -> has w' q fs ->
  or_quit hh e call next w = Val (Ended (mkResult 1 (e ++ [Said (eh_msg (q_err q) ++ NL)])%list None fs)).
Proof.
  intros Q N H. unfold or_quit. rewrite Q. cbn [bind]. apply Z.eqb_neq in N. rewrite N. cbn [negb].
  rewrite (message_has NL w' q fs e H). cbn [bind]. unfold ends. destruct H as [_ ->]. reflexivity.
Qed.
(** A setting. *)
Lemma or_quit_set e what f next (w : world) q fs : has w q fs -> eh_status (q_err (f q)) = OK ->
  exists w', has w' (f q) fs /\ or_quit hh e (on_query what (quietly f) hq) next w = next w'.
Proof.
  intros H K. destruct (on_query_has what (quietly f) w q fs (f q) fs H eq_refl) as (w' & Q & H').
  rewrite K in Q. exists w'. split; [exact H'|]. exact (or_quit_ok _ _ _ _ _ Q).
Qed.

(** ** The start *)
Lemma err_filename n (q : qstate DB) : q_err (set_filename n q) = q_err q. Proof. reflexivity. Qed.
Lemma err_filenameExt n (q : qstate DB) : q_err (set_filenameExt n q) = q_err q. Proof. reflexivity. Qed.
Lemma err_cacheSize n (q : qstate DB) : q_err (set_cacheSize n q) = q_err q.
Proof. unfold set_cacheSize. destruct (0 <? n); reflexivity. Qed.
Lemma err_cacheSizeExt n (q : qstate DB) : q_err (set_cacheSizeExt n q) = q_err q.
Proof. unfold set_cacheSizeExt. destruct (0 <? n); reflexivity. Qed.
Lemma err_squash b l (q : qstate DB) : q_err (set_squash b l q) = q_err q.
Proof. reflexivity. Qed.

Lemma cSettings_eq fuel c junk e (w : world) fs : has w (with_err (q_new g) (fst (start_log E c fs))) (snd (start_log E c fs)) ->
  exists w', has w' (before_open g c (fst (start_log E c fs))) (snd (start_log E c fs)) /\
    cSettings E T S to_end fuel c junk hq hh e w =
    or_quit hh e (cencalvm_open E hq) (cType E T S to_end fuel c junk hq hh e) w'.
Proof.
  intros H. pose proof (configure_eq E g c fs) as CE. apply (f_equal fst) in CE. cbn [fst] in CE.
  pose proof (start_clean E c fs) as [OKs _].
  assert (CE' : fst (configure E c (q_new g) fs) =
    let q := with_err (q_new g) (fst (start_log E c fs)) in
    let q := set_filename (c_db c) q in
    let q := set_cacheSize (c_cache c) q in
    let q := if String.eqb (c_dbExt c) "" then q
             else set_cacheSizeExt (c_cache c) (set_filenameExt (c_dbExt c) q) in
    if fne (c_squash c) squashDefault then set_squash true (c_squash c) q else q).
  { unfold configure, start_log. change (q_err (q_new g)) with eh_new.
    destruct (if String.eqb (c_log c) "" then _ else _) as [e0 fs0]. reflexivity. }
  rewrite CE' in CE. clear CE'. cbv zeta in CE. rewrite <- CE. clear CE.
  set (q := with_err (q_new g) (fst (start_log E c fs))) in *. set (fs1 := snd (start_log E c fs)) in *.
  assert (Kq : eh_status (q_err q) = OK) by exact OKs. clearbody q fs1. clear OKs.
  unfold cSettings. unfold cencalvm_filename, cencalvm_cacheSize, cencalvm_filenameExt, cencalvm_cacheSizeExt, cencalvm_squash.
  change cSquashDefault with squashDefault. change (negb (1 =? 0)) with true.
  set (opened := or_quit hh e (cencalvm_open E hq) (cType E T S to_end fuel c junk hq hh e)).
  edestruct (or_quit_set e "filename" (set_filename (c_db c))) as (w1 & H1 & ->); [exact H | rewrite err_filename; exact Kq |].
  edestruct (or_quit_set e "cacheSize" (set_cacheSize (c_cache c))) as (w2 & H2 & ->); [exact H1 | rewrite err_cacheSize, err_filename; exact Kq |].
  set (q2 := set_cacheSize (c_cache c) (set_filename (c_db c) q)) in *.
  assert (K2 : eh_status (q_err q2) = OK) by (unfold q2; rewrite err_cacheSize, err_filename; exact Kq). clearbody q2.
  assert (X : exists w3, has w3 (if String.eqb (c_dbExt c) "" then q2 else set_cacheSizeExt (c_cache c) (set_filenameExt (c_dbExt c) q2)) fs1 /\
    forall next, (if negb (String.eqb "" (c_dbExt c))
                  then or_quit hh e (on_query "filename" (quietly (set_filenameExt (c_dbExt c))) hq)
                         (or_quit hh e (on_query "cacheSize" (quietly (set_cacheSizeExt (c_cache c))) hq) next)
                  else next) w2 = next w3).
  { rewrite (String.eqb_sym "" (c_dbExt c)). destruct (String.eqb (c_dbExt c) ""); cbn [negb].
    - exists w2. split; [exact H2 | reflexivity].
    - destruct (on_query_has "filename" (quietly (set_filenameExt (c_dbExt c))) w2 q2 fs1 (set_filenameExt (c_dbExt c) q2) fs1 H2 eq_refl) as (w3 & Q3 & H3).
      rewrite err_filenameExt, K2 in Q3.
      destruct (on_query_has "cacheSize" (quietly (set_cacheSizeExt (c_cache c))) w3 _ fs1 (set_cacheSizeExt (c_cache c) (set_filenameExt (c_dbExt c) q2)) fs1 H3 eq_refl) as (w4 & Q4 & H4).
      rewrite err_cacheSizeExt, err_filenameExt, K2 in Q4.
      exists w4. split; [exact H4|]. intros next. rewrite (or_quit_ok _ _ _ _ _ Q3). exact (or_quit_ok _ _ _ _ _ Q4). }
  destruct X as (w3 & H3 & X). rewrite X. clear X.
  set (q3 := if String.eqb (c_dbExt c) "" then q2 else _) in *.
  assert (K3 : eh_status (q_err q3) = OK).
  { unfold q3. destruct (String.eqb (c_dbExt c) ""); rewrite ?err_cacheSizeExt, ?err_filenameExt; exact K2. } clearbody q3.
  destruct (fne (c_squash c) squashDefault).
  - edestruct (or_quit_set e "squash" (set_squash true (c_squash c)) opened w3 q3 fs1 H3) as (w4 & H4 & ->); [rewrite err_squash; exact K3|].
    exists w4. split; [exact H4 | reflexivity].
  - exists w3. split; [exact H3 | reflexivity].
Qed.

Lemma cMain_opening fuel junk args fs c e : cParseArgs T args = Val (inr (c, e)) ->
  exists w, has w (before_open g c (fst (start_log E c fs))) (snd (start_log E c fs)) /\
    cMain E T S to_end fuel g junk args fs =
    or_quit hh e (cencalvm_open E hq) (cType E T S to_end fuel c junk hq hh e) w.
Proof.
  intros HP. unfold cMain. rewrite HP. cbn [bind cencalvm_createQuery w_next]. unfold cencalvm_errorHandler. cbn [w_objs].
  change (upd (fun _ : nat => None) 0 (Some (q_new g)) 0%nat) with (Some (@q_new DB g)). cbv iota. cbn [bind].
  set (w0 := mkWorld _ _ _ _).
  assert (H0 : has w0 (q_new g) fs) by (split; reflexivity).
  assert (X : exists w1 z, has w1 (with_err (q_new g) (fst (start_log E c fs))) (snd (start_log E c fs)) /\
    (if (0 <? String.length (c_log c))%nat then cencalvm_error_logFilename (e_writable E) (c_log c) hh w0 else Val (w0, 0)) = Val (w1, z)).
  { unfold start_log. destruct (c_log c) as [|a s] eqn:CL.
    - exists w0, 0. split; [|reflexivity]. cbn [String.eqb fst snd]. exact H0.
    - cbn [String.length String.eqb]. change (0 <? Datatypes.S (String.length s))%nat with true. cbv iota.
      unfold cencalvm_error_logFilename, on_handler. destruct H0 as [-> ->]. change (q_err (q_new g)) with eh_new.
      destruct (eh_logFilename (e_writable E) (String a s) eh_new fs) as [e1 fs1]. cbn [fst snd].
      eexists. eexists. split; [|reflexivity]. apply has_replace. }
  destruct X as (w1 & z & H1 & X). rewrite X. cbn [bind].
  destruct (cSettings_eq fuel c junk e w1 fs H1) as (w2 & H2 & Q). exists w2. split; [exact H2 | exact Q].
Qed.

Lemma open_has (w : world) q fs q' : has w q fs -> open E q = Val q' ->
  exists w', cencalvm_open E hq w = Val (w', status_code (eh_status (q_err q'))) /\ has w' q' fs.
Proof. intros H Q. apply (on_query_has "open" (may_fail (open E)) w q fs q' fs H). unfold may_fail. rewrite Q. reflexivity. Qed.

Lemma cType_kind fuel c junk e (w : world) fs q k q' : has w q fs -> asks_kind c k -> (k <> MAXRES -> flt (c_res c) f_zero = false) ->
  setType c q = inl q' -> exists w', has w' q' fs /\
    cType E T S to_end fuel c junk hq hh e w = cLocations E T S to_end fuel c junk hq hh e w'.
Proof.
  intros H HK HN HS. unfold cType. unfold setType in HS. unfold cencalvm_queryType, cencalvm_queryRes.
  assert (ST : forall what f q0 (w0 : world), has w0 q0 fs -> exists w1 z, on_query what (quietly f) hq w0 = Val (w1, z) /\ has w1 (f q0) fs).
  { intros what f q0 w0 H0. destruct (on_query_has what (quietly f) w0 q0 fs (f q0) fs H0 eq_refl) as (w1 & Q & H1). eauto. }
  destruct (casecmp (c_type c) "maxres").
  - injection HS as <-. destruct (ST "queryType"%string (set_queryType 0) q w H) as (w1 & z & -> & H1). exists w1. split; [exact H1 | reflexivity].
  - destruct (flt (c_res c) f_zero); [discriminate|].
    destruct (ST "queryRes"%string (set_queryRes (c_res c)) q w H) as (w1 & z & -> & H1). cbn [bind].
    destruct (casecmp (c_type c) "fixedres"); [|destruct (casecmp (c_type c) "waveres"); [|discriminate]]; injection HS as <-.
    + destruct (ST "queryType"%string (set_queryType 1) _ w1 H1) as (w2 & z2 & -> & H2). exists w2. split; [exact H2 | reflexivity].
    + destruct (ST "queryType"%string (set_queryType 2) _ w1 H1) as (w2 & z2 & -> & H2). exists w2. split; [exact H2 | reflexivity].
Qed.

Lemma cMain_start fuel junk args fs c e k d x : cParseArgs T args = Val (inr (c, e)) -> opens E c d x ->
  asks_kind c k -> (k <> MAXRES -> flt (c_res c) f_zero = false) ->
  exists w, has w (object c k g (Some d) x (fst (start_log E c fs))) (snd (start_log E c fs)) /\
    cMain E T S to_end fuel g junk args fs = cLocations E T S to_end fuel c junk hq hh e w.
Proof.
  intros HP HO HK HN. destruct (cMain_opening fuel junk args fs c e HP) as (w0 & H0 & ->).
  destruct (open_has w0 _ _ _ H0 (open_good E g c _ d x HO)) as (w1 & Q1 & H1).
  destruct (start_clean E c fs) as [OKs _]. cbn [set_db q_err] in Q1. rewrite OKs in Q1.
  rewrite (or_quit_ok _ _ _ _ _ Q1).
  exact (cType_kind fuel c junk e w1 _ _ k _ H1 HK HN (setType_opened g c k d x _ HK HN)).
Qed.

Lemma cMain_refuses fuel junk args fs c e m : cParseArgs T args = Val (inr (c, e)) -> c_refuses E S c m ->
  cMain E T S to_end fuel g junk args fs = Val (Ended (mkResult 1 (e ++ m)%list None (snd (start_log E c fs)))).
Proof.
  intros HP HC. destruct (start_clean E c fs) as [OKs _]. set (e0 := fst (start_log E c fs)) in *. set (fs1 := snd (start_log E c fs)).
  inversion HC as [H1 H2|H1 H2|d x H1 H2 H3|d x H1 H2 H3|d x k H1 H2 H3 H4|d x k text H1 H2 H3 H4 H5]; subst m.
  - destruct (cMain_opening fuel junk args fs c e HP) as (w0 & H0 & ->).
    assert (Q : exists x, open E (before_open g c e0) = Val (set_db (before_open g c e0) None x (eh_error (open_msg (c_db c)) e0))).
    { rewrite open_before, H1. destruct (String.eqb_spec (c_dbExt c) "") as [|N]; [eauto|]. destruct H2 as [H2|H2]; [contradiction|].
      destruct (e_open E (c_dbExt c) (cache_of c)) as [x|]; [eauto | contradiction]. }
    destruct Q as [x Q]. destruct (open_has w0 _ _ _ H0 Q) as (w1 & Q1 & K1).
    rewrite (or_quit_bad _ _ _ _ _ _ _ _ Q1 ltac:(discriminate) K1). cbn [set_db q_err eh_error eh_msg].
    unfold open_msg. rewrite !app_assoc_s. reflexivity.
  - destruct (cMain_opening fuel junk args fs c e HP) as (w0 & H0 & ->).
    assert (Q : exists q, open E (before_open g c e0) = Val q /\ eh_status (q_err q) = ERROR /\ eh_msg (q_err q) = open_ext_msg (c_dbExt c)).
    { rewrite open_before, (proj2 (String.eqb_neq _ _) H1), H2.
      destruct (e_open E (c_db c) (cache_of c)) as [d|]; eexists; (split; [reflexivity|]); split; reflexivity. }
    destruct Q as (q & Q & S2 & M2). destruct (open_has w0 _ _ _ H0 Q) as (w1 & Q1 & K1). rewrite S2 in Q1.
    rewrite (or_quit_bad _ _ _ _ _ _ _ _ Q1 ltac:(discriminate) K1). rewrite M2.
    unfold open_ext_msg. rewrite !app_assoc_s. reflexivity.
  - destruct (cMain_opening fuel junk args fs c e HP) as (w0 & H0 & ->).
    destruct (open_has w0 _ _ _ H0 (open_good E g c _ d x H1)) as (w1 & Q1 & [_ K1]). cbn [set_db q_err] in Q1. fold e0 in Q1. rewrite OKs in Q1.
    rewrite (or_quit_ok _ _ _ _ _ Q1). unfold cType.
    rewrite (no_kind_cmp c MAXRES H2 : casecmp (c_type c) "maxres" = false), H3. unfold ends. rewrite K1. reflexivity.
  - destruct (cMain_opening fuel junk args fs c e HP) as (w0 & H0 & ->).
    destruct (open_has w0 _ _ _ H0 (open_good E g c _ d x H1)) as (w1 & Q1 & K1). cbn [set_db q_err] in Q1. fold e0 in Q1. rewrite OKs in Q1.
    rewrite (or_quit_ok _ _ _ _ _ Q1). unfold cType.
    rewrite (no_kind_cmp c MAXRES (H2 _) : casecmp (c_type c) "maxres" = false), H3.
    destruct (on_query_has "queryRes" (quietly (set_queryRes (c_res c))) w1 _ _ _ _ K1 eq_refl) as (w2 & Q2 & [_ K2]).
    unfold cencalvm_queryRes. rewrite Q2. cbn [bind].
    rewrite (no_kind_cmp c FIXEDRES (H2 _) : casecmp (c_type c) "fixedres" = false), (no_kind_cmp c WAVERES (H2 _) : casecmp (c_type c) "waveres" = false).
    unfold ends. rewrite K2. reflexivity.
  - destruct (cMain_start fuel junk args fs c e k d x HP H1 H2 H3) as (w & [_ K] & ->).
    unfold cLocations. rewrite H4. unfold ends. rewrite K. reflexivity.
  - destruct (cMain_start fuel junk args fs c e k d x HP H1 H2 H3) as (w & [_ K] & ->).
    unfold cLocations. rewrite H4, H5. cbn [negb]. unfold ends. rewrite K. reflexivity.
Qed.

(** ** The loop *)
Variable q0 : qstate DB.
Hypothesis SH : stores_shorts E (q_db q0).
Hypothesis SX : stores_shorts E (q_dbExt q0).
Hypothesis Q0v : q_vals q0 = nine.
Hypothesis Q0e : q_err q0 = eh_new.

Lemma cLine_eq lon lat elev v : cLine T lon lat elev v = outLine T lon lat elev v.
Proof. reflexivity. Qed.

Lemma reply_clean fs olds lon lat elev q' fs' v e1 : query E q0 fs (Some olds) lon lat elev = Val (q', fs', v) ->
  eh_status (q_err q') = OK -> clean (relog e1 (q_err q')).
Proof.
  intros Q QS. split; [exact QS|]. cbn [relog eh_msg].
  assert (AR : after_reports (q_err q0) (q_err q')) by (eapply query_effects; exact Q).
  destruct AR as (h & RO & QH). clear - RO QH QS Q0e.
  pose proof (handler_last (fun _ => true) h (q_err q0, fun _ => None)) as HL. cbn [fst] in HL.
  rewrite <- QH, QS, Q0e in HL. cbn [eh_new eh_status eh_msg] in HL. clear QH QS.
  destruct h as [|c h _] using rev_ind; [injection HL as ->; reflexivity|].
  rewrite last_given_snoc in HL. apply Forall_app in RO. destruct RO as [_ RO]. inversion RO as [|c' h' RC _]; subst.
  destruct c; try contradiction; discriminate HL.
Qed.

Lemma cLoop_step l y : replies E q0 l y -> y_status y <> ERROR ->
  forall n e1 (w : world) e lines fs vals s, clean e1 -> has w (with_err q0 e1) fs -> List.length vals = 9%nat -> in_feof s = false ->
  exists w' e2 line, clean e2 /\ eh_stream e2 = eh_stream e1 /\ has w' (with_err q0 e2) (logs E e1 [l] [y] fs) /\
    line_for T l y line /\ List.length (y_vals y) = 9%nat /\
    cLoop E T S to_end (Datatypes.S n) hq hh w e lines (Some vals) l s =
    cLoop E T S to_end n hq hh w' (e ++ warned [y])%list (kept S lines [line]) (Some (y_vals y))
      (snd (scan3 (t_num T) to_end l s)) (fst (scan3 (t_num T) to_end l s)).
Proof.
  intros Hl NE n e1 w e lines fs vals s HC HW HV HS.
  destruct (reply_line E T q0 SH SX Q0v l y Hl) as (line & QL & LF & LV). destruct l as [[lon lat] elev]. cbn [fst snd] in QL.
  destruct Hl as (fs0 & olds & q' & fs' & Q & QS & QM).
  pose proof (query_length E _ _ _ _ _ _ _ Q) as LO. rewrite Q0v in LO. change (List.length nine) with 9%nat in LO.
  pose proof (query_relog E q0 SH SX Q0v Q0e e1 fs fs0 vals olds lon lat elev HC HV LO) as QR. rewrite Q in QR.
  change (if feq (nth64 (y_vals y) 6) f_zero then eh_log (nodata_line E lon lat elev) e1 fs else fs)
    with (logs E e1 [(lon, lat, elev)] [y] fs) in QR.
  set (fs1 := logs E e1 [(lon, lat, elev)] [y] fs) in *.
  destruct (query_has w _ fs vals lon lat elev _ _ _ HW QR) as (w1 & Q1 & H1).
  cbn [with_err q_err relog eh_status] in Q1. rewrite QS in Q1.
  cbn [cLoop]. rewrite HS, Q1. cbn [bind].
  set (sc := scan3 (t_num T) to_end (lon, lat, elev) s). cbn [kept]. unfold warned. cbn [flat_map].
  destruct (y_status y) eqn:YS.
  - cbn [status_code Z.eqb negb bind]. rewrite cLine_eq, QL. cbn [bind].
    exists w1, (relog e1 (q_err q')), line.
    split; [exact (reply_clean fs0 olds lon lat elev q' fs' (y_vals y) e1 Q QS)|]. split; [reflexivity|]. split; [exact H1|].
    split; [exact LF|]. split; [exact LV|]. cbn [app]. rewrite app_nil_r. destruct sc; reflexivity.
  - cbn [status_code Z.eqb negb bind].
    rewrite (message_has "" w1 _ _ _ H1). cbn [bind]. rewrite (status_has w1 _ _ H1).
    cbn [with_err q_err relog eh_status eh_msg bind]. rewrite QS, QM. cbn [status_code Z.eqb Pos.eqb].
    destruct (reset_has w1 _ _ H1) as (w2 & Q2 & H2). rewrite Q2. cbn [bind]. rewrite cLine_eq, QL. cbn [bind].
    exists w2, (eh_reset (relog e1 (q_err q'))), line.
    split; [split; reflexivity|]. split; [reflexivity|]. split; [exact H2|]. split; [exact LF|]. split; [exact LV|].
    cbn [app]. rewrite append_nil_r. destruct sc; reflexivity.
  - congruence.
Qed.

Lemma kept_app have a b : kept S have (a ++ b)%list = kept S (kept S have a) b.
Proof. revert have. induction a as [|l a IH]; intros have; cbn [app kept]; [reflexivity | apply IH]. Qed.
Lemma logs_cons e1 e2 l y ls ys fs : eh_stream e2 = eh_stream e1 ->
  logs E e2 ls ys (logs E e1 [l] [y] fs) = logs E e1 (l :: ls) (y :: ys) fs.
Proof.
  intros H. destruct l as [[a b] c]. cbn [logs]. generalize (if no_data_reply y then eh_log (nodata_line E a b c) e1 fs else fs).
  revert ys. induction ls as [|[[a' b'] c'] ls IH]; intros [|y' ys] fs0; cbn [logs]; try reflexivity.
  rewrite IH. unfold eh_log. rewrite H. reflexivity.
Qed.

Lemma cLoop_feeds ls ys : Forall2 (replies E q0) ls ys -> Forall (fun y => y_status y <> ERROR) ys ->
  forall n e1 (w : world) e lines fs vals loc s loc' s', clean e1 -> has w (with_err q0 e1) fs -> List.length vals = 9%nat ->
  feeds (t_num T) to_end ls loc s loc' s' ->
  exists w' e2 new vals', clean e2 /\ eh_stream e2 = eh_stream e1 /\ has w' (with_err q0 e2) (logs E e1 ls ys fs) /\
    lines_for T ls ys new /\ List.length vals' = 9%nat /\
    cLoop E T S to_end (List.length ls + n) hq hh w e lines (Some vals) loc s =
    cLoop E T S to_end n hq hh w' (e ++ warned ys)%list (kept S lines new) (Some vals') loc' s'.
Proof.
  induction 1 as [|l y ls ys Hl Hls IH]; intros NE n e1 w e lines fs vals loc s loc' s' HC HW HV HF.
  - inversion HF; subst. exists w, e1, [], vals. change (warned []) with (@nil said). rewrite app_nil_r. cbn [logs kept].
    repeat (split; [first [assumption | reflexivity | constructor]|]). reflexivity.
  - inversion NE as [|y' ys' NE1 NE2]; subst. inversion HF as [|? ? ? ? ? HS HF']; subst.
    destruct (cLoop_step loc y Hl NE1 (List.length ls + n) e1 w e lines fs vals s HC HW HV HS)
      as (w1 & e2 & line & C2 & S2 & H2 & LF & LV & Q).
    destruct (IH NE2 n e2 w1 (e ++ warned [y])%list (kept S lines [line]) (logs E e1 [loc] [y] fs) (y_vals y) _ _ loc' s' C2 H2 LV HF')
      as (w3 & e3 & new & vals' & C3 & S3 & H3 & LF3 & LV3 & Q3).
    exists w3, e3, (line :: new), vals'. split; [exact C3|]. split; [congruence|].
    split; [rewrite <- (logs_cons e1 e2) by exact S2; exact H3|]. split; [constructor; assumption|]. split; [exact LV3|].
    cbn [List.length Nat.add]. rewrite Q, Q3.
    replace (e ++ warned (y :: ys))%list with ((e ++ warned [y]) ++ warned ys)%list
      by (unfold warned; cbn [flat_map]; rewrite app_nil_r, app_assoc; reflexivity).
    rewrite <- (kept_app lines [line] new). reflexivity.
Qed.

Lemma cLoop_more ls ys : Forall2 (replies E q0) ls ys -> Forall (fun y => y_status y <> ERROR) ys ->
  forall fuel e1 (w : world) e lines fs vals loc s loc' s', (List.length ls <= fuel)%nat ->
  clean e1 -> has w (with_err q0 e1) fs -> List.length vals = 9%nat ->
  feeds (t_num T) to_end ls loc s loc' s' ->
  exists w' e2 new vals', clean e2 /\ eh_stream e2 = eh_stream e1 /\ has w' (with_err q0 e2) (logs E e1 ls ys fs) /\
    lines_for T ls ys new /\ List.length vals' = 9%nat /\
    cLoop E T S to_end fuel hq hh w e lines (Some vals) loc s =
    cLoop E T S to_end (fuel - List.length ls) hq hh w' (e ++ warned ys)%list (kept S lines new) (Some vals') loc' s'.
Proof.
  intros HY HE fuel e1 w e lines fs vals loc s loc' s' L HC HW HV HF.
  pose proof (cLoop_feeds ls ys HY HE (fuel - List.length ls) e1 w e lines fs vals loc s loc' s' HC HW HV HF) as K.
  replace (List.length ls + (fuel - List.length ls))%nat with fuel in K by lia. exact K.
Qed.

Lemma cLoop_error l y : replies E q0 l y -> y_status y = ERROR ->
  forall n e1 (w : world) e lines fs vals s, clean e1 -> has w (with_err q0 e1) fs -> List.length vals = 9%nat -> in_feof s = false ->
  cLoop E T S to_end (Datatypes.S n) hq hh w e lines (Some vals) l s =
  Val (Ended (mkResult 1 (e ++ [Said (y_msg y)])%list (Some lines) (logs E e1 [l] [y] fs))).
Proof.
  intros Hl YE n e1 w e lines fs vals s HC HW HV HS. destruct l as [[lon lat] elev].
  destruct Hl as (fs0 & olds & q' & fs' & Q & QS & QM).
  pose proof (query_length E _ _ _ _ _ _ _ Q) as LO. rewrite Q0v in LO. change (List.length nine) with 9%nat in LO.
  pose proof (query_relog E q0 SH SX Q0v Q0e e1 fs fs0 vals olds lon lat elev HC HV LO) as QR. rewrite Q in QR.
  change (if feq (nth64 (y_vals y) 6) f_zero then eh_log (nodata_line E lon lat elev) e1 fs else fs)
    with (logs E e1 [(lon, lat, elev)] [y] fs) in QR.
  set (fs1 := logs E e1 [(lon, lat, elev)] [y] fs) in *.
  destruct (query_has w _ fs vals lon lat elev _ _ _ HW QR) as (w1 & Q1 & H1).
  cbn [with_err q_err relog eh_status] in Q1. rewrite QS, YE in Q1.
  cbn [cLoop]. rewrite HS, Q1. cbn [bind status_code Z.eqb negb].
  rewrite (message_has "" w1 _ _ _ H1). cbn [bind]. rewrite (status_has w1 _ _ H1).
  cbn [with_err q_err relog eh_status eh_msg bind]. rewrite QS, YE, QM. cbn [status_code Z.eqb Pos.eqb bind].
  unfold ends. destruct H1 as [_ ->]. rewrite append_nil_r. reflexivity.
Qed.

Lemma cLoop_fails l o : fails E q0 l o ->
  forall n e1 (w : world) e lines fs vals s, clean e1 -> has w (with_err q0 e1) fs -> List.length vals = 9%nat -> in_feof s = false ->
  match o with
  | Val _ | Throw _ => False
  | Abort => cLoop E T S to_end (Datatypes.S n) hq hh w e lines (Some vals) l s = Abort
  | UB why => cLoop E T S to_end (Datatypes.S n) hq hh w e lines (Some vals) l s = UB why
  end.
Proof.
  intros Hl n e1 w e lines fs vals s HC [HW1 HW2] HV HS. destruct l as [[lon lat] elev].
  destruct Hl as (fs0 & olds & LO & Q).
  pose proof (query_relog E q0 SH SX Q0v Q0e e1 fs fs0 vals olds lon lat elev HC HV LO) as QR.
  cbn [cLoop]. rewrite HS. unfold cencalvm_query. rewrite HW1, HW2, QR.
  destruct Q as [[-> ->]|(why & -> & ->)]; reflexivity.
Qed.
End Run.
