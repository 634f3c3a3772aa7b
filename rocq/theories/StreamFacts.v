(** Facts about formatted input. *)
From Coq Require Import ZArith Bool Lia Ascii String List.
From Verif Require Import Float Stream SpecText.
Import ListNotations.

Notation chars := list_ascii_of_string.

Lemma chars_app a b : chars (a ++ b)%string = (chars a ++ chars b)%list.
Proof. induction a as [|c a IH]; [reflexivity|]. cbn. rewrite IH. reflexivity. Qed.
Lemma app_assoc_s a b c : ((a ++ b) ++ c = a ++ (b ++ c))%string.
Proof. induction a as [|x a IH]; [reflexivity|]. cbn. rewrite IH. reflexivity. Qed.

Lemma length_app_s a b : String.length (a ++ b) = (String.length a + String.length b)%nat.
Proof. induction a as [|x a IH]; [reflexivity|]. cbn. rewrite IH. reflexivity. Qed.

Lemma isspace_blank c : isspace c = true <-> blank c.
Proof.
  unfold isspace, blank. cbn [In]. rewrite orb_true_iff, andb_true_iff, !Nat.leb_le, Nat.eqb_eq. lia.
Qed.
Lemma isspace_nonblank c : isspace c = false <-> ~ blank c.
Proof. rewrite <- isspace_blank. destruct (isspace c); split; congruence. Qed.

Lemma skipws_blanks l r : (forall c, In c l -> blank c) -> skipws (l ++ r) = skipws r.
Proof.
  induction l as [|c l IH]; intros H; [reflexivity|]. cbn [app skipws].
  rewrite (proj2 (isspace_blank c)) by (apply H; left; reflexivity).
  apply IH. intros x Hx. apply H. right; exact Hx.
Qed.
Lemma takeword_word l r : (forall c, In c l -> ~ blank c) ->
  takeword (l ++ r) = ((l ++ fst (takeword r))%list, snd (takeword r)).
Proof.
  induction l as [|c l IH]; intros H; [cbn; destruct (takeword r); reflexivity|]. cbn [app takeword].
  rewrite (proj2 (isspace_nonblank c)) by (apply H; left; reflexivity).
  rewrite IH by (intros x Hx; apply H; right; exact Hx). reflexivity.
Qed.

Definition fresh (s : string) : istream := mkIn (chars s) false false.

Lemma good_fresh s : good (fresh s) = true.
Proof. reflexivity. Qed.

Lemma laid_blank_front ws c t : blank c -> laid_out ws t -> laid_out ws (String c t).
Proof.
  intros Hc H. inversion H; subst.
  - apply laid_blank. intros x [<-|Hx]; [exact Hc | apply H0; exact Hx].
  - change (String c (s ++ w ++ String c0 rest)) with ((String c s) ++ w ++ String c0 rest)%string.
    apply laid_word; try assumption. intros x [<-|Hx]; [exact Hc | apply H0; exact Hx].
Qed.

(** Reading one word that is followed by white space. *)
Lemma getWord_laid w ws t e : laid_out (w :: ws) t ->
  exists t', getWord (fresh (t ++ e)) = (fresh (t' ++ e), Some w) /\ laid_out ws t' /\
             (String.length t' < String.length t)%nat.
Proof.
  intros H. inversion H as [|s w0 c rest ws0 Hs [Hw1 Hw2] Hc Hr]; subst.
  exists (String c rest). split; [|split].
  - unfold getWord. rewrite good_fresh. unfold fresh at 1. cbn [i_rest].
    rewrite !chars_app, <- app_assoc, skipws_blanks by exact Hs.
    destruct w as [|c0 w]; [congruence|]. cbn [list_ascii_of_string app].
    cbn [skipws]. rewrite (proj2 (isspace_nonblank c0)) by (apply Hw2; left; reflexivity).
    change (c0 :: (chars w ++ c :: chars rest) ++ chars e)%list
      with ((chars (String c0 w) ++ (c :: chars rest)) ++ chars e)%list.
    rewrite <- app_assoc, takeword_word by exact Hw2.
    cbn [app takeword]. rewrite (proj2 (isspace_blank c) Hc). cbn [fst snd].
    rewrite app_nil_r, string_of_list_ascii_of_string. unfold fresh.
    cbn [append]. cbn [list_ascii_of_string]. rewrite chars_app. reflexivity.
  - apply laid_blank_front; assumption.
  - rewrite !length_app_s. destruct w; [congruence|]. cbn. lia.
Qed.

(** Reading the last, unterminated word. *)
Lemma getWord_last t w : blanks t -> word w ->
  getWord (fresh (t ++ w)) = (mkIn [] true false, Some w).
Proof.
  intros Ht [Hw1 Hw2]. unfold getWord. rewrite good_fresh. unfold fresh. cbn [i_rest].
  rewrite chars_app, skipws_blanks by exact Ht.
  destruct w as [|c0 w]; [congruence|]. cbn [list_ascii_of_string skipws].
  rewrite (proj2 (isspace_nonblank c0)) by (apply Hw2; left; reflexivity).
  change (c0 :: chars w) with (chars (String c0 w)).
  rewrite <- (app_nil_r (chars (String c0 w))), takeword_word by exact Hw2.
  cbn [takeword fst snd]. rewrite app_nil_r, string_of_list_ascii_of_string. reflexivity.
Qed.
Lemma getWord_none t : blanks t -> getWord (fresh t) = (mkIn [] true true, None).
Proof.
  intros Ht. unfold getWord. rewrite good_fresh. unfold fresh. cbn [i_rest].
  rewrite <- (app_nil_r (chars t)), skipws_blanks by exact Ht. reflexivity.
Qed.
Lemma getWord_end t e : blanks t -> unterminated e ->
  good (fst (getWord (fresh (t ++ e)))) = false.
Proof.
  intros Ht [->|He].
  - replace (t ++ "")%string with t by (clear; induction t; cbn; congruence).
    rewrite getWord_none by exact Ht. reflexivity.
  - rewrite getWord_last by assumption. reflexivity.
Qed.

(** Every text has this form. *)
Lemma text_form s : exists ws t e, s = (t ++ e)%string /\ laid_out ws t /\ unterminated e.
Proof.
  induction s as [|c s (ws & t & e & -> & Ht & He)].
  - exists [], ""%string, ""%string. split; [reflexivity|]. split; [|left; reflexivity].
    apply laid_blank. intros c [].
  - destruct (isspace c) eqn:Ec.
    + apply isspace_blank in Ec. exists ws, (String c t), e.
      split; [reflexivity|]. split; [apply laid_blank_front; assumption | exact He].
    + apply isspace_nonblank in Ec. inversion Ht as [s Hs|s w b rest ws0 Hs Hw Hb Hr]; subst.
      * destruct t as [|b t].
        -- exists [], ""%string, (String c e). split; [reflexivity|]. split; [apply laid_blank; exact Hs|].
           right. split; [discriminate|]. intros x [<-|Hx]; [exact Ec|].
           destruct He as [->|[_ He]]; [destruct Hx | apply He; exact Hx].
        -- exists [String c ""], (String c (String b t)), e. split; [reflexivity|]. split; [|exact He].
           apply (laid_word "" (String c "") b t []).
           ++ intros x [].
           ++ split; [discriminate|]. intros x [<-|[]]. exact Ec.
           ++ apply Hs. left; reflexivity.
           ++ apply laid_blank. intros x Hx. apply Hs. right; exact Hx.
      * destruct s as [|a s].
        -- exists (String c w :: ws0), (String c (w ++ String b rest)), e.
           split; [reflexivity|]. split; [|exact He].
           apply (laid_word "" (String c w) b rest ws0); [intros x []| |exact Hb|exact Hr].
           destruct Hw as [Hw1 Hw2]. split; [discriminate|].
           intros x [<-|Hx]; [exact Ec | apply Hw2; exact Hx].
        -- exists (String c "" :: w :: ws0), (String c (String a (s ++ w ++ String b rest))), e.
           split; [reflexivity|]. split; [|exact He].
           apply (laid_word "" (String c "") a (s ++ w ++ String b rest) (w :: ws0)).
           ++ intros x [].
           ++ split; [discriminate|]. intros x [<-|[]]. exact Ec.
           ++ apply Hs. left; reflexivity.
           ++ apply laid_word; try assumption. intros x Hx. apply Hs. right; exact Hx.
Qed.

(** ** Numbers *)
Lemma getNum_laid {A} (conv : string -> A * bool) old w ws t e v b :
  laid_out (w :: ws) t -> conv w = (v, b) ->
  exists t', getNum conv old (fresh (t ++ e)) =
             (mkIn (chars (t' ++ e)) false (negb b), v) /\ laid_out ws t'.
Proof.
  intros H Hc. destruct (getWord_laid w ws t e H) as (t' & H1 & H2 & _).
  exists t'. split; [|exact H2]. unfold getNum. rewrite H1, Hc. reflexivity.
Qed.
Lemma getWord_bad2 s : good s = false -> getWord s = (mkIn (i_rest s) (i_eof s) true, None).
Proof. intros H. unfold getWord. rewrite H. reflexivity. Qed.
Lemma getNum_bad {A} (conv : string -> A * bool) old s : good s = false ->
  good (fst (getNum conv old s)) = false.
Proof.
  intros H. unfold getNum. rewrite getWord_bad2 by exact H. unfold good. cbn. apply andb_false_r.
Qed.
Lemma getNum_end {A} (conv : string -> A * bool) old t e : blanks t -> unterminated e ->
  good (fst (getNum conv old (fresh (t ++ e)))) = false.
Proof.
  intros Ht [->|He].
  - replace (t ++ "")%string with t by (clear; induction t; cbn; congruence).
    unfold getNum. rewrite getWord_none by exact Ht. reflexivity.
  - unfold getNum. rewrite getWord_last by assumption. destruct (conv e) as [v b]. reflexivity.
Qed.
