(** C73: the output of cencalvmquery can be read back. *)
From Coq Require Import ZArith Bool Reals Lra Lia String Ascii List.
From Flocq Require Import Core BinarySingleNaN.
From Verif Require Import Outcome Float Payload Addr SpecGeom Geom ErrorHandler VMQuery SpecQuery SpecHist Stream GetOpt QueryApp SpecText
  StreamFacts SpecApp AppFacts AppMain PropApp SpecInfo SpecReport SpecColumns.
Import ListNotations.
Open Scope Z_scope.

(** ** Numerals *)
Lemma digit_bounds c d : digit_value c = Some d -> 0 <= d <= 9.
Proof. unfold digit_value. destruct (_ && _) eqn:B; [|discriminate]. intros Q. injection Q as <-. apply andb_true_iff in B. rewrite !Z.leb_le in B. lia. Qed.
Lemma digit_zero c : digit_value c = Some 0 -> c = "0"%char.
Proof.
  unfold digit_value. destruct (_ && _); [|discriminate]. intros Q. apply (f_equal (fun o => match o with Some z => z | None => 1 end)) in Q.
  rewrite <- (ascii_nat_embedding c). replace (nat_of_ascii c) with 48%nat by lia. reflexivity.
Qed.
Lemma digit_not_blank c d : digit_value c = Some d -> ~ blank c.
Proof.
  intros D B. unfold digit_value in D. destruct (_ && _) eqn:L; [|discriminate]. apply andb_true_iff in L. rewrite !Z.leb_le in L.
  unfold blank in B. cbn [In] in B. lia.
Qed.
Lemma number_digits s : forall acc n, number acc s = Some n -> forall c, In c (list_ascii_of_string s) -> ~ blank c.
Proof.
  induction s as [|a s IH]; intros acc n H c I; [destruct I|]. cbn [number] in H. destruct (digit_value a) as [d|] eqn:D; [|discriminate].
  destruct I as [<-|I]; [exact (digit_not_blank _ _ D)|exact (IH _ _ H c I)].
Qed.
Lemma number_large s : forall acc n, 0 <= acc -> number acc s = Some n -> acc * 10 ^ Z.of_nat (String.length s) <= n.
Proof.
  induction s as [|a s IH]; intros acc n P H; cbn [number String.length] in *; [injection H as <-; rewrite Z.pow_0_r; lia|].
  destruct (digit_value a) as [d|] eqn:D; [|discriminate]. apply digit_bounds in D. apply IH in H; [|lia].
  rewrite Nat2Z.inj_succ, Z.pow_succ_r by lia. assert (0 < 10 ^ Z.of_nat (String.length s)) by (apply Z.pow_pos_nonneg; lia). nia.
Qed.
(** A number with less than k digits has a numeral of at most k. *)
Lemma spells_length s n k : spells s n -> (0 < k)%nat -> n < 10 ^ Z.of_nat k -> (String.length s <= k)%nat \/ String.get 0 s = Some "0"%char.
Proof.
  intros [NE H] K L. destruct s as [|c s]; [congruence|]. cbn [number] in H. destruct (digit_value c) as [d|] eqn:D; [|discriminate].
  pose proof (digit_bounds _ _ D) as DB. destruct (Z.eq_dec d 0) as [->|NZ]; [right; rewrite (digit_zero _ D); reflexivity|left].
  apply number_large in H; [|lia]. cbn [String.length]. destruct (Nat.le_gt_cases (Datatypes.S (String.length s)) k) as [|G]; [assumption|exfalso].
  assert (10 ^ Z.of_nat k <= 10 ^ Z.of_nat (String.length s)) by (apply Z.pow_le_mono_r; lia).
  assert (0 < 10 ^ Z.of_nat (String.length s)) by (apply Z.pow_pos_nonneg; lia). nia.
Qed.
Lemma get0_app a b : a <> ""%string -> String.get 0 (a ++ b) = String.get 0 a.
Proof. destruct a; [congruence|reflexivity]. Qed.
Lemma length_app a b : String.length (a ++ b) = (String.length a + String.length b)%nat.
Proof. induction a as [|c a IH]; [reflexivity|]. cbn [append String.length]. rewrite IH. reflexivity. Qed.
Lemma chars_app a b c : In c (list_ascii_of_string (a ++ b)) -> In c (list_ascii_of_string a) \/ In c (list_ascii_of_string b).
Proof. induction a as [|x a IH]; [auto|]. cbn [append list_ascii_of_string In]. intros [|H]; [auto|]. destruct (IH H); auto. Qed.
Lemma chars_in a b c : In c (list_ascii_of_string a) \/ In c (list_ascii_of_string b) -> In c (list_ascii_of_string (a ++ b)).
Proof. induction a as [|x a IH]; [intros [[]|]; assumption|]. cbn [append list_ascii_of_string In]. intros [[|]|]; auto. Qed.

Lemma point_length p k n s : with_point p n s -> (p < k)%nat -> n < 10 ^ Z.of_nat k -> (String.length s <= k + 1)%nat.
Proof.
  intros (a & b & -> & SP & LB & NE & FZ) PK L. rewrite length_app. cbn [append String.length].
  assert (K0 : (0 < k)%nat) by lia. destruct (spells_length _ _ _ SP K0 L) as [G|G].
  - rewrite length_app in G. lia.
  - rewrite (get0_app _ _ NE) in G. destruct FZ as [F|F]; [lia|congruence].
Qed.
Lemma plain_length k n s : plain n s -> (0 < k)%nat -> n < 10 ^ Z.of_nat k -> (String.length s <= k)%nat.
Proof. intros [SP FZ] K L. destruct (spells_length _ _ _ SP K L) as [G|G]; [exact G|]. destruct FZ as [F|F]; [lia|congruence]. Qed.
Lemma point_word p n s : with_point p n s -> word s.
Proof.
  intros (a & b & -> & [_ SP] & _ & NE & _). split; [destruct a; [congruence|discriminate]|]. intros c I.
  apply chars_app in I. destruct I as [I|I]; [apply (number_digits _ _ _ SP), chars_in; auto|].
  cbn [append list_ascii_of_string In] in I. destruct I as [<-|I]; [|apply (number_digits _ _ _ SP), chars_in; auto].
  unfold blank. cbn. lia.
Qed.
Lemma plain_word n s : plain n s -> word s.
Proof. intros [[NE SP] _]. split; [exact NE|]. exact (number_digits _ _ _ SP). Qed.
Lemma signed_word (P : Z -> string -> Prop) n s : (forall n s, P n s -> word s) -> signed P n s -> word s.
Proof.
  intros W [[_ H]|(_ & t & -> & H)]; [exact (W _ _ H)|]. destruct (W _ _ H) as [NE NB]. split; [discriminate|].
  intros c [<-|I]; [unfold blank; cbn; lia|exact (NB c I)].
Qed.
(** A number between limits has a numeral of at most this length. *)
Lemma signed_point_length p k n s : signed (with_point p) n s -> (p < k)%nat -> - 10 ^ Z.of_nat k < n < 10 ^ Z.of_nat (k + 1) ->
  (String.length s <= k + 2)%nat.
Proof.
  intros [[N H]|(N & t & -> & H)] PK L.
  - apply (point_length _ (k + 1)) in H; lia.
  - apply (point_length _ k) in H; [cbn [String.length]; lia|exact PK|lia].
Qed.
Lemma signed_plain_length k n s : signed plain n s -> (0 < k)%nat -> - 10 ^ Z.of_nat k < n < 10 ^ Z.of_nat (k + 1) ->
  (String.length s <= k + 1)%nat.
Proof.
  intros [[N H]|(N & t & -> & H)] PK L.
  - apply (plain_length (k + 1)) in H; lia.
  - apply (plain_length k) in H; [cbn [String.length]; lia|exact PK|lia].
Qed.

(** ** Columns *)
(** A blank, then words. *)
Definition after_blank (ws : list string) (t : string) : Prop := exists c r, t = String c r /\ blank c /\ laid_out ws r.
Lemma spaces_blank n : blanks (spaces n).
Proof. induction n as [|n IH]; intros c I; [destruct I|]. destruct I as [<-|I]; [unfold blank; cbn; tauto|exact (IH c I)]. Qed.
Lemma column_first width s ws t : word s -> after_blank ws t -> laid_out (s :: ws) (aligned width s ++ t).
Proof.
  intros W (c & r & -> & B & L). unfold aligned. rewrite app_assoc_s. apply laid_word; [apply spaces_blank|exact W|exact B|exact L].
Qed.
Lemma column_next width s ws t : word s -> (String.length s < Z.to_nat width)%nat -> after_blank ws t -> after_blank (s :: ws) (aligned width s ++ t).
Proof.
  intros W LS (c & r & -> & B & L). unfold aligned. destruct (Z.to_nat width - String.length s)%nat as [|k] eqn:K; [lia|].
  exists " "%char, ((spaces k ++ s) ++ String c r)%string. split; [reflexivity|]. split; [unfold blank; cbn; tauto|].
  rewrite app_assoc_s. apply laid_word; [apply spaces_blank|exact W|exact B|exact L].
Qed.

Lemma rounded_between p lo hi x n : from_to p lo hi x -> (Rabs (value x * 10 ^ p - IZR n) <= 1 / 2)%R -> lo <= n <= hi.
Proof.
  intros [_ [A B]] H. unfold Rabs in H.
  assert (C1 : (IZR lo - IZR n < 1)%R) by (destruct (Rcase_abs _); lra). assert (C2 : (IZR n - IZR hi < 1)%R) by (destruct (Rcase_abs _); lra).
  rewrite <- minus_IZR in C1, C2. apply (lt_IZR _ 1) in C1. apply (lt_IZR _ 1) in C2. lia.
Qed.
Section Line.
Variable T : texts.
Hypothesis HT : prints T.

Lemma fixed_next p width x k lo hi ws t : 0 < p -> (Z.to_nat p < k)%nat -> from_to (Z.to_nat p) lo hi x ->
  - 10 ^ Z.of_nat k < lo -> hi < 10 ^ Z.of_nat (k + 1) -> (k + 2 < Z.to_nat width)%nat -> after_blank ws t ->
  exists s, shows (Z.to_nat p) x s /\ after_blank (s :: ws) (t_fixed T p width x ++ t).
Proof.
  intros P PK F LO HI W A. destruct (proj1 HT p width x P (proj1 F)) as (s & SH & ->). exists s. split; [exact SH|].
  destruct SH as (n & SG & R). apply (rounded_between _ _ _ _ _ F) in R.
  apply column_next; [|pose proof (signed_point_length _ k _ _ SG PK); lia|exact A].
  exact (signed_word _ _ _ (point_word _) SG).
Qed.
Lemma int_next width n k ws t : short n -> (0 < k)%nat -> - 10 ^ Z.of_nat k < n < 10 ^ Z.of_nat (k + 1) -> (k + 1 < Z.to_nat width)%nat -> after_blank ws t ->
  exists s, shows_int (i2f64 n) s /\ after_blank (s :: ws) (t_int T width n ++ t).
Proof.
  intros SH K B W A. destruct (proj2 HT width n) as (s & SG & ->). exists s. split; [exists n; auto|].
  apply column_next; [exact (signed_word _ _ _ plain_word SG)|pose proof (signed_plain_length k _ _ SG K B); lia|exact A].
Qed.

Lemma line_columns l y line ws t : line_for T l y line -> fits_columns l y -> after_blank ws t ->
  exists w12, columns l y w12 /\ laid_out (w12 ++ ws) (line ++ t).
Proof.
  destruct l as [[lon lat] elev]. intros (block & zone & SB & SZ & VB & VZ & ->) (F1 & F2 & F3 & F4 & F5 & F6 & F7) A.
  pose proof (F6 6%nat block (or_introl eq_refl) SB VB) as B6. pose proof (F6 7%nat zone (or_intror eq_refl) SZ VZ) as B7. clear F6.
  unfold line_text. rewrite !app_assoc_s.
  destruct (fixed_next 1 9 _ 6 _ _ ws t ltac:(lia) ltac:(cbn; lia) F7 ltac:(cbn; lia) ltac:(cbn; lia) ltac:(cbn; lia) A) as (w12 & S12 & A12).
  destruct (int_next 5 zone 3 _ _ SZ ltac:(lia) ltac:(cbn; lia) ltac:(cbn; lia) A12) as (w11 & S11 & A11).
  destruct (int_next 5 block 3 _ _ SB ltac:(lia) ltac:(cbn; lia) ltac:(cbn; lia) A11) as (w10 & S10 & A10).
  destruct (fixed_next 1 9 _ 6 _ _ _ _ ltac:(lia) ltac:(cbn; lia) (F5 5%nat ltac:(lia) ltac:(lia)) ltac:(cbn; lia) ltac:(cbn; lia) ltac:(cbn; lia) A10) as (w9 & S9 & A9).
  destruct (fixed_next 1 9 _ 6 _ _ _ _ ltac:(lia) ltac:(cbn; lia) (F5 4%nat ltac:(lia) ltac:(lia)) ltac:(cbn; lia) ltac:(cbn; lia) ltac:(cbn; lia) A9) as (w8 & S8 & A8).
  destruct (fixed_next 1 9 _ 6 _ _ _ _ ltac:(lia) ltac:(cbn; lia) (F5 3%nat ltac:(lia) ltac:(lia)) ltac:(cbn; lia) ltac:(cbn; lia) ltac:(cbn; lia) A8) as (w7 & S7 & A7).
  destruct (fixed_next 1 8 _ 5 _ _ _ _ ltac:(lia) ltac:(cbn; lia) (F4 2%nat ltac:(lia)) ltac:(cbn; lia) ltac:(cbn; lia) ltac:(cbn; lia) A7) as (w6 & S6 & A6).
  destruct (fixed_next 1 8 _ 5 _ _ _ _ ltac:(lia) ltac:(cbn; lia) (F4 1%nat ltac:(lia)) ltac:(cbn; lia) ltac:(cbn; lia) ltac:(cbn; lia) A6) as (w5 & S5 & A5).
  destruct (fixed_next 1 8 _ 5 _ _ _ _ ltac:(lia) ltac:(cbn; lia) (F4 0%nat ltac:(lia)) ltac:(cbn; lia) ltac:(cbn; lia) ltac:(cbn; lia) A5) as (w4 & S4 & A4).
  destruct (fixed_next 1 9 _ 6 _ _ _ _ ltac:(lia) ltac:(cbn; lia) F3 ltac:(cbn; lia) ltac:(cbn; lia) ltac:(cbn; lia) A4) as (w3 & S3 & A3).
  destruct (fixed_next 5 9 _ 6 _ _ _ _ ltac:(lia) ltac:(cbn; lia) F2 ltac:(cbn; lia) ltac:(cbn; lia) ltac:(cbn; lia) A3) as (w2 & S2 & A2).
  destruct (proj1 HT 5 10 lon ltac:(lia) F1) as (w1 & S1 & ->).
  exists [w1; w2; w3; w4; w5; w6; w7; w8; w9; w10; w11; w12]. split.
  - unfold columns. rewrite VB, VZ. repeat (apply Forall2_cons; [assumption|]). apply Forall2_nil.
  - cbn [app]. apply column_first; [|exact A2]. destruct S1 as (n & SG & _). exact (signed_word _ _ _ (point_word _) SG).
Qed.

Lemma lines_columns ls ys lines : lines_for T ls ys lines -> Forall2 fits_columns ls ys ->
  exists wss, Forall2 (fun ly ws => columns (fst ly) (snd ly) ws) (combine ls ys) wss /\ laid_out (concat wss) (as_lines lines).
Proof.
  induction 1 as [|l y s ls ys ss L LS IH]; intros F.
  - exists []. split; [constructor|]. apply laid_blank. intros c [].
  - inversion F as [|? ? ? ? F1 F2]; subst. destruct (IH F2) as (wss & C & LO).
    destruct (line_columns l y s (concat wss) (newline ++ as_lines ss) L F1) as (w12 & C1 & L1).
    { exists "010"%char, (as_lines ss). split; [reflexivity|]. split; [unfold blank; cbn; tauto|exact LO]. }
    exists (w12 :: wss). split; [apply Forall2_cons; assumption|exact L1].
Qed.
End Line.

(** ** Reading back *)
Lemma laid_append ws t ws' t' : laid_out ws t -> laid_out ws' t' -> laid_out (ws ++ ws') (t ++ t').
Proof.
  intros H H'. induction H as [s B|s w c rest ws B W BC L IH].
  - cbn [List.app]. inversion H' as [s' B'|s' w c rest ws'' B' W BC L]; subst.
    + apply laid_blank. intros x I. apply chars_app in I. destruct I; auto.
    + rewrite <- app_assoc_s. apply laid_word; auto. intros x I. apply chars_app in I. destruct I; auto.
  - cbn [List.app]. rewrite !app_assoc_s. cbn [append]. apply laid_word; auto.
Qed.
(** The whole output file consists of twelve words for each location, on a line of its own,
    that show the location and its values. *)
Theorem C73_read_back : forall DB (E : env DB) T S g args c w k d x junk ls fs ys,
  running E T S args c w k d x junk ls ->
  Forall2 (replies E (object c k g (Some d) x eh_new)) ls ys -> Forall (fun y => y_status y <> ERROR) ys -> closes E d x ->
  prints T -> Forall2 fits_columns ls ys ->
  exists lines fs' wss, main E T S g junk args fs = Val (mkResult 0 (w ++ warned ys) (Some lines) fs') /\
    Forall2 (fun ly ws => columns (fst ly) (snd ly) ws) (combine ls ys) wss /\
    Forall2 (fun ws line => laid_out ws (line ++ newline)) wss lines /\ laid_out (concat wss) (as_lines lines).
Proof.
  intros DB E T S g args c w k d x junk ls fs ys R Y NE C P F.
  destruct (C40_all_lines DB E T S g args c w k d x junk ls fs ys R Y NE) as (lines & fs' & L & _ & M & _).
  specialize (M C). exists lines, fs'. rewrite M. clear - L P F.
  assert (G : exists wss, Forall2 (fun ly ws => columns (fst ly) (snd ly) ws) (combine ls ys) wss /\
    Forall2 (fun ws line => laid_out ws (line ++ newline)) wss lines /\ laid_out (concat wss) (as_lines lines)).
  { induction L as [|l y s ls ys ss L LS IH].
    - exists []. split; [constructor|]. split; [constructor|]. apply laid_blank. intros c [].
    - inversion F as [|? ? ? ? F1 F2]; subst. destruct (IH F2) as (wss & CC & LL & LO).
      destruct (line_columns T P l y s [] newline L F1) as (w12 & C1 & L1).
      { exists "010"%char, ""%string. split; [reflexivity|]. split; [unfold blank; cbn; tauto|apply laid_blank; intros c []]. }
      rewrite app_nil_r in L1.
      exists (w12 :: wss). split; [apply Forall2_cons; assumption|]. split; [apply Forall2_cons; assumption|].
      cbn [concat as_lines]. rewrite <- app_assoc_s. apply laid_append; assumption. }
  destruct G as (wss & A & B & D). exists wss. auto.
Qed.

(** A text has only one sequence of words. *)
Definition blankc (c : ascii) : bool := existsb (Nat.eqb (nat_of_ascii c)) [9; 10; 11; 12; 13; 32]%nat.
Lemma blankc_iff c : blankc c = true <-> blank c.
Proof.
  unfold blankc, blank. rewrite existsb_exists. split.
  - intros (x & I & Q). apply Nat.eqb_eq in Q. rewrite Q. exact I.
  - intros H. eexists. split; [exact H | apply Nat.eqb_refl].
Qed.
Fixpoint words_of (cur : string) (t : string) : list string :=
  match t with
  | EmptyString => []
  | String c r => if blankc c then if String.eqb cur "" then words_of "" r else cur :: words_of "" r else words_of (cur ++ String c "") r
  end.
Lemma words_blanks s t : blanks s -> words_of "" (s ++ t) = words_of "" t.
Proof.
  induction s as [|c s IH]; intros B; [reflexivity|]. cbn [append words_of]. rewrite (proj2 (blankc_iff c)) by (apply B; left; reflexivity).
  apply IH. intros x I. apply B. right. exact I.
Qed.
Lemma words_word w : forall cur t, (forall c, In c (list_ascii_of_string w) -> ~ blank c) -> words_of cur (w ++ t) = words_of (cur ++ w) t.
Proof.
  induction w as [|c w IH]; intros cur t B; cbn [append]; [rewrite append_nil_r; reflexivity|]. cbn [words_of].
  destruct (blankc c) eqn:K; [exfalso; apply blankc_iff in K; exact (B c (or_introl eq_refl) K)|].
  rewrite IH by (intros x I; apply B; right; exact I). rewrite app_assoc_s. reflexivity.
Qed.
Lemma words_laid ws t : laid_out ws t -> words_of "" t = ws.
Proof.
  induction 1 as [s B|s w c rest ws B [NE W] BC L IH].
  - rewrite <- (append_nil_r s), (words_blanks _ _ B). reflexivity.
  - rewrite (words_blanks _ _ B), (words_word _ _ _ W). cbn [append words_of]. rewrite (proj2 (blankc_iff c) BC).
    apply String.eqb_neq in NE. rewrite NE, IH. reflexivity.
Qed.
(** A word shows only one number. *)
Lemma split_point : forall a a' b b', (a ++ "." ++ b = a' ++ "." ++ b')%string -> String.length b = String.length b' -> a = a' /\ b = b'.
Proof.
  intros a a' b b' Q LB. assert (LA : String.length a = String.length a').
  { apply (f_equal String.length) in Q. rewrite !length_app in Q. cbn [append String.length] in Q. lia. }
  revert a' Q LA. induction a as [|c a IH]; intros [|c' a'] Q LA; try discriminate LA.
  - cbn [append] in Q. injection Q as ->. auto.
  - cbn [append] in Q. injection Q as -> Q. destruct (IH a' Q) as [-> ->]; [cbn [String.length] in LA; lia|auto].
Qed.
Lemma point_unique p n n' s : with_point p n s -> with_point p n' s -> n = n'.
Proof.
  intros (a & b & -> & [_ SP] & LB & _) (a' & b' & Q & [_ SP'] & LB' & _).
  apply split_point in Q; [|congruence]. destruct Q as [-> ->]. congruence.
Qed.
Lemma point_first p n t : ~ with_point p n (String "-" t).
Proof.
  intros (a & b & Q & [_ SP] & _ & NE & _). destruct a as [|c a]; [congruence|]. cbn [append] in Q. injection Q as <- _.
  cbn [append number] in SP. discriminate SP.
Qed.
Theorem C73_words_unique : (forall ws ws' t, laid_out ws t -> laid_out ws' t -> ws = ws') /\
  (forall p n n' w, signed (with_point p) n w -> signed (with_point p) n' w -> n = n') /\
  (forall n n' w, signed plain n w -> signed plain n' w -> n = n').
Proof.
  split; [|split].
  - intros ws ws' t H H'. rewrite <- (words_laid _ _ H). exact (words_laid _ _ H').
  - intros p n n' w [[_ H]|(_ & t & -> & H)] [[_ H']|(_ & t' & Q & H')].
    + exact (point_unique _ _ _ _ H H').
    + subst w. destruct (point_first _ _ _ H).
    + destruct (point_first _ _ _ H').
    + injection Q as <-. pose proof (point_unique _ _ _ _ H H'). lia.
  - assert (PF : forall n t, ~ plain n (String "-" t)) by (intros n t [[_ SP] _]; discriminate SP).
    intros n n' w [[_ H]|(_ & t & -> & H)] [[_ H']|(_ & t' & Q & H')].
    + destruct H as [[_ H] _], H' as [[_ H'] _]. congruence.
    + subst w. destruct (PF _ _ H).
    + destruct (PF _ _ H').
    + injection Q as <-. destruct H as [[_ H] _], H' as [[_ H'] _]. rewrite H in H'. injection H' as H'. lia.
Qed.

(** ** A formatter *)
Fixpoint last_digits (k : nat) (n : Z) : string :=
  match k with O => "" | S k => (last_digits k (n / 10) ++ String (ascii_of_nat (Z.to_nat (48 + n mod 10))) "")%string end.
Fixpoint digits (fuel : nat) (n : Z) : string :=
  match fuel with
  | O => ""
  | S f => ((if (n <? 10)%Z then "" else digits f (n / 10)) ++ String (ascii_of_nat (Z.to_nat (48 + n mod 10))) "")%string
  end.
Definition whole_digits (n : Z) : string := digits (S (Z.to_nat (Z.log2 n))) n.
(** The size of the number in units of 10^-p. *)
Definition units (p : nat) (x : f64) : Z :=
  match x with
  | S754_finite _ m e => if 0 <=? e then Zpos m * 10 ^ Z.of_nat p * 2 ^ e
                         else (2 * (Zpos m * 10 ^ Z.of_nat p) + 2 ^ (- e)) / (2 * 2 ^ (- e))
  | _ => 0
  end.
Definition fixed_text (p : nat) (x : f64) : string :=
  let n := units p x in
  let t := (whole_digits (n / 10 ^ Z.of_nat p) ++ "." ++ last_digits p n)%string in
  match x with
  | S754_finite true _ _ | S754_zero true => String "-" t
  | S754_nan => "nan" | S754_infinity true => "-inf" | S754_infinity false => "inf"
  | _ => t
  end.
Definition int_text (n : Z) : string := if n <? 0 then String "-" (whole_digits (- n)) else whole_digits n.

Lemma number_app a : forall b acc, number acc (a ++ b) = match number acc a with Some x => number x b | None => None end.
Proof. induction a as [|c a IH]; intros b acc; cbn [append number]; [reflexivity|]. destruct (digit_value c); [apply IH|reflexivity]. Qed.
Lemma digit_back d : 0 <= d <= 9 -> digit_value (ascii_of_nat (Z.to_nat (48 + d))) = Some d.
Proof.
  intros H. unfold digit_value. rewrite nat_ascii_embedding by lia. replace (Z.of_nat (Z.to_nat (48 + d)) - 48) with d by lia.
  replace ((0 <=? d) && (d <=? 9)) with true; [reflexivity|]. symmetry. rewrite andb_true_iff, !Z.leb_le. lia.
Qed.
Lemma mod10 n : 0 <= n mod 10 <= 9.
Proof. pose proof (Z.mod_pos_bound n 10). lia. Qed.
Lemma last_number k : forall acc n, number acc (last_digits k n) = Some (acc * 10 ^ Z.of_nat k + n mod 10 ^ Z.of_nat k).
Proof.
  induction k as [|k IH]; intros acc n; cbn [last_digits].
  - cbn [number]. rewrite Z.pow_0_r, Z.mod_1_r. f_equal. lia.
  - rewrite number_app, IH. cbn [number]. rewrite (digit_back _ (mod10 n)). f_equal. rewrite Nat2Z.inj_succ, Z.pow_succ_r by lia.
    rewrite (Z.rem_mul_r n 10 (10 ^ Z.of_nat k)) by lia. lia.
Qed.
Lemma last_length k : forall n, String.length (last_digits k n) = k.
Proof. induction k as [|k IH]; intros n; [reflexivity|]. cbn [last_digits]. rewrite length_app, IH. cbn [String.length]. lia. Qed.
Lemma digits_ok f : forall n, 0 <= n < 2 ^ Z.of_nat f ->
  (f <> O -> digits f n <> ""%string) /\ (forall acc, acc = 0 \/ f = O -> f <> O -> number acc (digits f n) = Some n) /\
  (f <> O -> String.length (digits f n) = 1%nat \/ String.get 0 (digits f n) <> Some "0"%char) /\
  (f <> O -> 0 < n -> String.get 0 (digits f n) <> Some "0"%char).
Proof.
  induction f as [|f IH]; intros n H; [repeat split; intros; congruence|]. rewrite Nat2Z.inj_succ, Z.pow_succ_r in H by lia.
  cbn [digits]. destruct (Z.ltb_spec n 10) as [L|L].
  - rewrite Z.mod_small by lia. cbn [append]. repeat split.
    + intros _ Q. discriminate Q.
    + intros acc [->|?] _; [|discriminate]. cbn [number]. rewrite digit_back by lia. f_equal; lia.
    + intros _. left. reflexivity.
    + intros _ P Q. cbn [String.get] in Q. apply (f_equal (fun o => match o with Some c => digit_value c | None => None end)) in Q.
      rewrite digit_back in Q by lia. change (digit_value "0") with (Some 0) in Q. assert (n = 0) by congruence. lia.
  - assert (F : f <> O) by (intros ->; cbn in H; lia).
    destruct (IH (n / 10)) as (A & B & _ & D).
    { split; [apply Z.div_pos; lia|]. apply Z.div_lt_upper_bound; lia. }
    specialize (A F). assert (P : 0 < n / 10) by (apply Z.div_str_pos; lia). specialize (D F P). repeat split.
    + intros _ Q. destruct (digits f (n / 10)); discriminate Q.
    + intros acc [->|?] _; [|discriminate]. rewrite number_app, (B 0 (or_introl eq_refl) F). cbn [number]. rewrite (digit_back _ (mod10 n)).
      f_equal. pose proof (Z.div_mod n 10). lia.
    + intros _. right. destruct (digits f (n / 10)) as [|c r]; [congruence|]. exact D.
    + intros _ _. destruct (digits f (n / 10)) as [|c r]; [congruence|]. exact D.
Qed.
Lemma whole_ok n : 0 <= n -> whole_digits n <> ""%string /\ number 0 (whole_digits n) = Some n /\
  (String.length (whole_digits n) = 1%nat \/ String.get 0 (whole_digits n) <> Some "0"%char).
Proof.
  intros H. unfold whole_digits. destruct (digits_ok (S (Z.to_nat (Z.log2 n))) n) as (A & B & C & _).
  - split; [exact H|]. rewrite Nat2Z.inj_succ, Z2Nat.id by apply Z.log2_nonneg. destruct (Z.eq_dec n 0) as [->|N]; [reflexivity|].
    apply Z.log2_spec. lia.
  - split; [apply A; discriminate|]. split; [apply B; [left; reflexivity|discriminate]|apply C; discriminate].
Qed.
Lemma fixed_point p n : 0 <= n -> with_point p n (whole_digits (n / 10 ^ Z.of_nat p) ++ "." ++ last_digits p n).
Proof.
  intros H. assert (P : 0 < 10 ^ Z.of_nat p) by (apply Z.pow_pos_nonneg; lia).
  destruct (whole_ok (n / 10 ^ Z.of_nat p)) as (A & B & C); [apply Z.div_pos; lia|].
  exists (whole_digits (n / 10 ^ Z.of_nat p)), (last_digits p n). split; [reflexivity|]. split; [|split; [apply last_length|auto]].
  split; [intros Q; destruct (whole_digits (n / 10 ^ Z.of_nat p)); [congruence|discriminate Q]|].
  rewrite number_app, B, last_number. f_equal. pose proof (Z.div_mod n (10 ^ Z.of_nat p)). lia.
Qed.
Lemma units_pos p x : 0 <= units p x.
Proof.
  destruct x as [ | | |s m e]; cbn [units]; try lia. assert (0 < 10 ^ Z.of_nat p) by (apply Z.pow_pos_nonneg; lia).
  destruct (Z.leb_spec 0 e).
  - apply Z.mul_nonneg_nonneg; [lia|apply Z.pow_nonneg; lia].
  - assert (0 < 2 ^ (- e)) by (apply Z.pow_pos_nonneg; lia). apply Z.div_pos; lia.
Qed.
Lemma units_round p s m e :
  (Rabs (value (S754_finite s m e) * 10 ^ p - IZR (if s then - units p (S754_finite s m e) else units p (S754_finite s m e))) <= 1 / 2)%R.
Proof.
  assert (M : (Rabs (value (S754_finite false m e) * 10 ^ p - IZR (units p (S754_finite false m e))) <= 1 / 2)%R).
  { unfold value, SF2R, F2R. cbn [Fnum Fexp cond_Zopp units]. rewrite pow_IZR. destruct (Z.leb_spec 0 e) as [L|L].
    - rewrite <- IZR_Zpower by lia. rewrite <- !mult_IZR, <- minus_IZR. change (Zpower radix2) with (Z.pow 2).
      match goal with |- (Rabs (IZR ?z) <= _)%R => replace z with 0 by (change (radix_val radix2) with 2; ring) end.
      rewrite Rabs_R0. lra.
    - assert (D : 0 < 2 ^ (- e)) by (apply Z.pow_pos_nonneg; lia). set (N := Zpos m * 10 ^ Z.of_nat p). set (d := 2 ^ (- e)) in *.
      replace (IZR (Zpos m) * bpow radix2 e * IZR (10 ^ Z.of_nat p))%R with (IZR N / IZR d)%R.
      2: { unfold N, d. rewrite mult_IZR. replace (bpow radix2 e) with (/ IZR (2 ^ (- e)))%R; [unfold Rdiv; ring|].
           change 2 with (radix_val radix2). rewrite (IZR_Zpower radix2) by lia. rewrite bpow_opp, Rinv_inv. reflexivity. }
      clearbody N d. pose proof (Z.div_mod (2 * N + d) (2 * d) ltac:(lia)) as Q. pose proof (Z.mod_pos_bound (2 * N + d) (2 * d) ltac:(lia)) as B.
      set (n := (2 * N + d) / (2 * d)) in *. clearbody n. set (r := (2 * N + d) mod (2 * d)) in *. clearbody r.
      assert (DR : (0 < IZR d)%R) by (apply IZR_lt; exact D).
      assert (U : (IZR N - IZR n * IZR d = (IZR r - IZR d) / 2)%R).
      { rewrite <- mult_IZR, <- !minus_IZR. replace (r - d) with (2 * (N - n * d)) by lia. rewrite mult_IZR. field. }
      assert (B0 : (0 <= IZR r < 2 * IZR d)%R) by (split; [apply IZR_le; lia|rewrite <- mult_IZR; apply IZR_lt; lia]).
      replace (IZR N / IZR d - IZR n)%R with ((IZR N - IZR n * IZR d) / IZR d)%R by (field; lra). rewrite U.
      apply Rabs_le. split.
      + apply (Rmult_le_reg_r (IZR d)); [exact DR|]. field_simplify; lra.
      + apply (Rmult_le_reg_r (IZR d)); [exact DR|]. field_simplify; lra. }
  destruct s; [|exact M]. change (units p (S754_finite true m e)) with (units p (S754_finite false m e)).
  replace (value (S754_finite true m e)) with (- value (S754_finite false m e))%R.
  - rewrite opp_IZR. rewrite <- Rabs_Ropp. match goal with |- (Rabs ?z <= _)%R => match type of M with (Rabs ?y <= _)%R => replace z with y by ring end end. exact M.
  - unfold value, SF2R. cbn [cond_Zopp]. rewrite <- F2R_Zopp. reflexivity.
Qed.
Lemma fixed_shows p x : finite_double x -> shows p x (fixed_text p x).
Proof.
  intros [_ F]. destruct x as [s|s| |s m e]; cbn [is_fin] in F; try discriminate F.
  - exists 0. split.
    + pose proof (fixed_point p 0 ltac:(lia)) as W. destruct s; [right; split; [lia|]; eexists; split; [reflexivity|exact W]|left; split; [lia|exact W]].
    + unfold value, SF2R. rewrite Rmult_0_l, Rminus_0_r, Rabs_R0. lra.
  - pose proof (units_pos p (S754_finite s m e)) as U. pose proof (units_round p s m e) as R. pose proof (fixed_point p _ U) as W.
    destruct s.
    + exists (- units p (S754_finite true m e)). split; [|exact R]. right. split; [lia|]. eexists. split; [reflexivity|]. rewrite Z.opp_involutive. exact W.
    + exists (units p (S754_finite false m e)). split; [|exact R]. left. split; [lia|exact W].
Qed.
Lemma int_signed n : signed plain n (int_text n).
Proof.
  unfold int_text. destruct (Z.ltb_spec n 0).
  - right. split; [lia|]. eexists. split; [reflexivity|]. destruct (whole_ok (- n)) as (A & B & C); [lia|]. split; [split; assumption|exact C].
  - left. split; [lia|]. destruct (whole_ok n) as (A & B & C); [lia|]. split; [split; assumption|exact C].
Qed.
Definition column_texts (T : texts) : texts :=
  mkTexts (t_num T) (t_atoi T) (t_atof T) (fun p width x => aligned width (fixed_text (Z.to_nat p) x)) (fun width n => aligned width (int_text n)).
Lemma column_prints T : prints (column_texts T).
Proof.
  split.
  - intros p width x P F. exists (fixed_text (Z.to_nat p) x). split; [apply fixed_shows, F|reflexivity].
  - intros width n. exists (int_text n). split; [apply int_signed|reflexivity].
Qed.

(** ** Examples *)
From Verif Require Import ToyLib ToyDb.
Open Scope string_scope. Open Scope Z_scope.
(** Degrees: the map projection knows one point. *)
Definition earth_lon : f64 := dec64 (-1225) 1.
Definition earth_lat : f64 := dec64 3775 2.
Definition earth : libm := mkLibm (m_cos toy) (m_sin toy) (m_log toy)
  (fun a b => if SFeqb a earth_lon && SFeqb b earth_lat then Some (toy_x, toy_y) else None)
  (fun _ _ => Some (earth_lon, earth_lat)).
Definition earth_num (w : string) : f64 * bool :=
  if String.eqb w "-122.5" then (earth_lon, true) else if String.eqb w "37.75" then (earth_lat, true)
  else if String.eqb w "-100000" then (i2f64 (-100000), true) else app_num w.
Definition earth_texts : texts :=
  column_texts (mkTexts (mkFmt earth_num earth_num (fun _ => (0, false)) (fun _ => (0, false)) app_show)
    (t_atoi app_texts) (t_atof app_texts) (t_fixed app_texts) (t_int app_texts)).

Fixpoint ends (inside : bool) (t : string) : bool :=
  match t with EmptyString => negb inside | String c r => ends (negb (blankc c)) r end.
Lemma words_check t : forall cur, (forall c, In c (list_ascii_of_string cur) -> ~ blank c) -> ends (negb (String.eqb cur "")) t = true ->
  laid_out (words_of cur t) (cur ++ t).
Proof.
  induction t as [|c t IH]; intros cur N H; cbn [ends words_of] in *.
  - rewrite negb_involutive in H. apply String.eqb_eq in H. subst cur. apply laid_blank. intros c [].
  - destruct (blankc c) eqn:B; cbn [negb] in H.
    + apply blankc_iff in B. pose proof (IH "" ltac:(intros x []) H) as L. cbn [append] in L. destruct (String.eqb cur "") eqn:Q.
      * apply String.eqb_eq in Q. subst cur. apply (laid_append [] (String c "") _ t); [|exact L]. apply laid_blank. intros x [<-|[]]. exact B.
      * apply String.eqb_neq in Q. apply (laid_word "" cur c t _); [intros x []|split; assumption|exact B|exact L].
    + replace (cur ++ String c t) with ((cur ++ String c "") ++ t) by (rewrite app_assoc_s; reflexivity). apply IH.
      * intros x I. apply chars_app in I. destruct I as [I|[<-|[]]]; [exact (N x I)|]. intros K. apply blankc_iff in K. congruence.
      * replace (String.eqb (cur ++ String c "") "") with false; [exact H|]. symmetry. apply String.eqb_neq. intros Q. destruct cur; discriminate Q.
Qed.
Lemma lists_check F ws ls t : ends false t = true -> words_of "" t = ws -> located F ws ls -> lists F t ls.
Proof.
  intros H <- L. exists (words_of "" t), [], t, "". rewrite append_nil_r, app_nil_r. split; [reflexivity|].
  split; [apply (words_check t ""); [intros c []|exact H]|]. split; [left; reflexivity|]. split; [exact L|]. intros a b c r lon lat elev Q. discriminate Q.
Qed.
Definition between (p : nat) (lo hi : Z) (x : f64) : bool :=
  valid_binary prec64 emax64 x &&
  match x with
  | S754_zero _ => (lo <=? 0) && (0 <=? hi)
  | S754_finite s m e =>
    let n := cond_Zopp s (Zpos m) * 10 ^ Z.of_nat p in
    if 0 <=? e then (lo <=? n * 2 ^ e) && (n * 2 ^ e <=? hi) else (lo * 2 ^ (- e) <=? n) && (n <=? hi * 2 ^ (- e))
  | _ => false
  end.
Lemma between_check p lo hi x : between p lo hi x = true -> from_to p lo hi x.
Proof.
  unfold between. rewrite andb_true_iff. intros [V H]. destruct x as [s| | |s m e]; try discriminate H.
  - split; [split; [exact V|reflexivity]|]. rewrite andb_true_iff, !Z.leb_le in H. unfold value, SF2R. rewrite Rmult_0_l. split; apply IZR_le; lia.
  - split; [split; [exact V|reflexivity]|]. unfold value, SF2R, F2R. cbn [Fnum Fexp]. rewrite pow_IZR. destruct (Z.leb_spec 0 e) as [L|L].
    + rewrite <- IZR_Zpower by lia. rewrite <- !mult_IZR. rewrite andb_true_iff, !Z.leb_le in H. change (Zpower radix2) with (Z.pow 2).
      change (radix_val radix2) with 2. split; apply IZR_le; lia.
    + rewrite andb_true_iff, !Z.leb_le in H. replace (bpow radix2 e) with (/ IZR (2 ^ (- e)))%R.
      2: { change 2 with (radix_val radix2). rewrite (IZR_Zpower radix2) by lia. rewrite bpow_opp, Rinv_inv. reflexivity. }
      assert (D : 0 < 2 ^ (- e)) by (apply Z.pow_pos_nonneg; lia). set (d := 2 ^ (- e)) in *. clearbody d. set (c := cond_Zopp s (Zpos m)) in *. clearbody c.
      assert (DR : (0 < IZR d)%R) by (apply IZR_lt; exact D). destruct H as [H1 H2]. apply IZR_le in H1, H2. rewrite !mult_IZR in H1, H2.
      replace (IZR c * / IZR d * IZR (10 ^ Z.of_nat p))%R with (IZR c * IZR (10 ^ Z.of_nat p) / IZR d)%R by (field; lra).
      split; apply (Rmult_le_reg_r (IZR d)); try exact DR; unfold Rdiv; rewrite ?Rmult_assoc, Rinv_l by lra; lra.
Qed.
Definition fits_check (l : location) (y : reply) : bool :=
  let '(lon, lat, elev) := l in
  let v := value_of (y_vals y) in
  let int x := match toInt x with Val n => (-999 <=? n) && (n <=? 9999) | _ => false end in
  valid_binary prec64 emax64 lon && is_fin lon && between 5 (-999999) 9999999 lat && between 1 (-999999) 9999999 elev &&
  forallb (fun i => between 1 (-99999) 999999 (v i)) [0; 1; 2]%nat && forallb (fun i => between 1 (-999999) 9999999 (v i)) [3; 4; 5; 8]%nat &&
  int (v 6%nat) && int (v 7%nat).
Lemma fits_checked l y : fits_check l y = true -> fits_columns l y.
Proof.
  destruct l as [[lon lat] elev]. unfold fits_check, fits_columns. rewrite !andb_true_iff. intros (((((((V & F) & LA) & EL) & SP) & QU) & B6) & B7).
  rewrite forallb_forall in SP, QU. split; [split; assumption|]. split; [apply between_check, LA|]. split; [apply between_check, EL|].
  split; [intros i I; apply between_check, SP; cbn [In]; lia|]. split; [intros i I J; apply between_check, QU; cbn [In]; lia|].
  split; [|apply between_check, QU; cbn [In]; lia].
  intros i n I S Q. assert (K : match toInt (value_of (y_vals y) i) with Val n => (-999 <=? n) && (n <=? 9999) | _ => false end = true).
  { destruct I as [->| ->]; assumption. }
  rewrite Q, (toInt_short n S) in K. rewrite andb_true_iff, !Z.leb_le in K. exact K.
Qed.

Definition earth_os (text : string) : os :=
  mkOs (fun n => if String.eqb n "in" then Some text else None) (fun n => String.eqb n "out") (fun _ => true).
Definition earth_text : string := "-122.5 37.75 -1234.5" ++ NL ++ "-122.5 37.75 5000" ++ NL ++ "-122.5 37.75 -0.03" ++ NL.
Definition deep_text : string := "-122.5 37.75 -100000" ++ NL.
Definition earth_locations : list location := map (pair (earth_lon, earth_lat)) [elev_a; i2f64 5000; elev_b].
Definition earth_object := object app_config MAXRES earth (Some toy_db) None eh_new.
Definition earth_reply (l : location) : reply :=
  match query toy_env earth_object (fun _ => None) (Some junk9) (fst (fst l)) (snd (fst l)) (snd l) with
  | Val (q, _, v) => mkReply (eh_status (q_err q)) (eh_msg (q_err q)) v
  | _ => mkReply OK "" []
  end.
Lemma earth_replies ls : forallb (fun l => match query toy_env earth_object (fun _ => None) (Some junk9) (fst (fst l)) (snd (fst l)) (snd l) with Val _ => true | _ => false end) ls = true ->
  Forall2 (replies toy_env earth_object) ls (map earth_reply ls).
Proof.
  induction ls as [|l ls IH]; cbn [forallb map]; intros F; [apply Forall2_nil|]. apply andb_prop in F. destruct F as [A B].
  apply Forall2_cons; [|exact (IH B)]. clear - A. destruct l as [[lon lat] elev]. unfold earth_reply, replies. cbn [fst snd] in *.
  destruct (query toy_env earth_object (fun _ => None) (Some junk9) lon lat elev) as [[[q f] v]|?| |?] eqn:Q; try discriminate.
  exists (fun _ => None), junk9, q, f. cbn [y_vals y_status y_msg]. rewrite Q. auto.
Qed.
Lemma earth_running text ls : lists (t_num earth_texts) text ls ->
  running toy_env earth_texts (earth_os text) app_args app_config [] MAXRES toy_db None junk9 ls.
Proof.
  intros L. split; [vm_compute; reflexivity|]. split; [exact app_opens|]. split; [reflexivity|]. split; [intros N; contradiction|].
  split; [apply (app_shorts "detailed"); reflexivity|]. split; [intros db a h p N; discriminate|]. split; [reflexivity|].
  split; [exists text; split; [reflexivity | exact L]|]. split; [reflexivity | intros l; reflexivity].
Qed.
Example C73_example :
  running toy_env earth_texts (earth_os earth_text) app_args app_config [] MAXRES toy_db None junk9 earth_locations /\
  Forall2 (replies toy_env earth_object) earth_locations (map earth_reply earth_locations) /\
  map y_status (map earth_reply earth_locations) = [OK; WARNING; OK] /\ closes toy_env toy_db None /\ prints earth_texts /\
  Forall2 fits_columns earth_locations (map earth_reply earth_locations) /\
  app_seen (main toy_env earth_texts (earth_os earth_text) earth junk9 app_args (fun _ => None)) =
  Some (0, [Said ("WARNING: No data for #, #, #." ++ NL)],
    Some ["-122.50000 37.75000  -1234.5  5000.0  2900.0  2700.0    200.0    100.0   1250.0   11    3     18.8";
          "-122.50000 37.75000   5000.0  -999.0  -999.0  -999.0   -999.0   -999.0   -999.0    0    0   -999.0";
          "-122.50000 37.75000     -0.0  1500.0   400.0  1800.0    200.0    100.0     10.0    7    2      3.8"],
    Some ("#, #, #, No data" ++ NL)).
Proof.
  split; [|split; [|split; [|split; [|split; [|split]]]]].
  - apply earth_running. eapply lists_check; [vm_compute; reflexivity..|]. repeat (apply located_cons; [reflexivity..|]). apply located_nil.
  - apply earth_replies. vm_compute. reflexivity.
  - vm_compute. reflexivity.
  - split; [reflexivity | intros x' N; discriminate].
  - apply column_prints.
  - assert (F : forallb (fun l => fits_check l (earth_reply l)) earth_locations = true) by (vm_compute; reflexivity).
    revert F. generalize earth_locations. induction l as [|l ls IH]; cbn [forallb map]; intros F; [apply Forall2_nil|].
    apply andb_prop in F. destruct F as [A B]. apply Forall2_cons; [apply fits_checked, A | exact (IH B)].
  - vm_compute. reflexivity.
Qed.

Lemma same_length {A B} (P : A -> B -> Prop) l l' : Forall2 P l l' -> List.length l = List.length l'.
Proof. induction 1; cbn [List.length]; congruence. Qed.
(** Without the bounds on the numbers: 100 km below sea level the elevation fills its
    column, and its word is glued to the latitude. *)
Theorem C73_any_number_refuted : ~ (forall DB (E : env DB) T S g args c w k d x junk ls fs ys,
  running E T S args c w k d x junk ls ->
  Forall2 (replies E (object c k g (Some d) x eh_new)) ls ys -> Forall (fun y => y_status y <> ERROR) ys -> closes E d x ->
  prints T -> Forall (fun l => let '(lon, lat, elev) := l in finite_double lon /\ finite_double lat /\ finite_double elev) ls ->
  exists lines fs' wss, main E T S g junk args fs = Val (mkResult 0 (w ++ warned ys) (Some lines) fs') /\
    Forall2 (fun ly ws => columns (fst ly) (snd ly) ws) (combine ls ys) wss /\
    laid_out (concat wss) (as_lines lines)).
Proof.
  intros H. set (l := (earth_lon, earth_lat, i2f64 (-100000)) : location).
  destruct (H _ toy_env earth_texts (earth_os deep_text) earth app_args app_config [] MAXRES toy_db None junk9 [l]
    (fun _ => None) [earth_reply l]) as (lines & fs' & wss & M & C & L).
  - apply earth_running. eapply lists_check; [vm_compute; reflexivity..|]. repeat (apply located_cons; [reflexivity..|]). apply located_nil.
  - apply (earth_replies [l]). vm_compute. reflexivity.
  - apply Forall_cons; [vm_compute; discriminate|apply Forall_nil].
  - split; [reflexivity | intros x' N; discriminate].
  - apply column_prints.
  - apply Forall_cons; [|apply Forall_nil]. repeat split.
  - inversion C as [|? ws ? ? C1 C2]; subst. inversion C2; subst. cbn [concat] in L. rewrite app_nil_r in L. apply words_laid in L.
    cbn [fst snd columns] in C1. apply same_length in C1. rewrite <- L in C1. cbn [List.length] in C1.
    apply (f_equal (fun o => match o with Val r => match r_lines r with Some ls => List.length (words_of "" (as_lines ls)) | None => O end | _ => O end)) in M.
    cbn [r_lines] in M. rewrite <- C1 in M. vm_compute in M. discriminate M.
Qed.
Print Assumptions C73_read_back.
Print Assumptions C73_words_unique.
Print Assumptions C73_any_number_refuted.
