(** The line logged for a tick. *)
From Coq Require Import Ascii.
From Verif Require Import ReportTextProofs.
Open Scope Z_scope.

Lemma app_cons_r a c b : ((a ++ String c "") ++ b)%string = (a ++ String c b)%string.
Proof. induction a as [|x a IH]; [reflexivity|]. exact (f_equal (String x) IH). Qed.
Lemma app_empty_r a : (a ++ "")%string = a.
Proof. induction a as [|x a IH]; [reflexivity|]. exact (f_equal (String x) IH). Qed.
Lemma app_assoc_s a b c : ((a ++ b) ++ c)%string = (a ++ (b ++ c))%string.
Proof. induction a as [|x a IH]; [reflexivity|]. exact (f_equal (String x) IH). Qed.
Lemma words_end a : forall wd, one_word a = true -> line_words_from wd a = [(wd ++ a)%string].
Proof.
  induction a as [|c a IH]; intros wd Ha; [simpl; now rewrite app_empty_r|]. simpl in Ha. apply andb_true_iff in Ha as [Hc Ha].
  simpl. destruct (Ascii.eqb c " "); [discriminate|]. rewrite (IH _ Ha). f_equal. apply app_cons_r.
Qed.
Lemma words_space a b : forall wd, one_word a = true -> line_words_from wd (a ++ String " " b) = (wd ++ a)%string :: line_words_from "" b.
Proof.
  induction a as [|c a IH]; intros wd Ha; [simpl; now rewrite app_empty_r|]. simpl in Ha. apply andb_true_iff in Ha as [Hc Ha].
  simpl. destruct (Ascii.eqb c " "); [discriminate|]. rewrite (IH _ Ha). f_equal. apply app_cons_r.
Qed.
Lemma one_word_app a b : one_word (a ++ b) = one_word a && one_word b.
Proof. induction a as [|c a IH]; [reflexivity|]. change (negb (Ascii.eqb c " ") && one_word (a ++ b) = negb (Ascii.eqb c " ") && one_word a && one_word b).
  rewrite IH. apply andb_assoc. Qed.
Lemma digit_word n : 0 <= n < 10 -> one_word (digit n) = true.
Proof. intros Hn. destruct (decide (n = 0 \/ n = 1 \/ n = 2 \/ n = 3 \/ n = 4 \/ n = 5 \/ n = 6 \/ n = 7 \/ n = 8 \/ n = 9)) as [D|]; [|lia].
  repeat (destruct D as [-> | D]; [reflexivity|]). now subst. Qed.
Lemma pad2_word n : 0 <= n < 100 -> one_word (pad2 n) = true.
Proof. intros Hn. destruct (div10 n Hn) as (A & B & _). unfold pad2. rewrite one_word_app, !digit_word by assumption. reflexivity. Qed.
Lemma pad4_word n : 0 <= n < 10000 -> one_word (pad4 n) = true.
Proof. intros Hn. destruct (div100 n Hn) as (A & B & _). unfold pad4. rewrite one_word_app, !pad2_word by assumption. reflexivity. Qed.
Lemma date_words w : representable w -> exists d h, date_text " " w = (d ++ String " " h)%string /\ one_word d = true /\ one_word h = true.
Proof.
  intros R. destruct (date_fields w) as (y & mo & d & _ & Ey & Em & Ed & Bm & Bd). apply representable_year in R.
  pose proof (hms w) as Hh. cbv zeta in Hh.
  exists (pad4 (w_year w) ++ "-" ++ pad2 (w_month w) ++ "-" ++ pad2 (w_day w))%string, (time_text w).
  split; [unfold date_text; rewrite !app_assoc_s; reflexivity|]. unfold time_text.
  rewrite !one_word_app, pad4_word, !pad2_word by lia. split; reflexivity.
Qed.

Section line.
  Context {F : Type} `{Num F}.
  Variable ftext : F -> string.
  Implicit Types t : tick F.

  Lemma tick_line t : representable (ar_wall (tk_dt t)) -> 1000 <= w_year (ar_wall (tk_dt t)) ->
    (forall x, In x [tk_value t; tk_bid t; tk_ask t; tk_spread t] -> one_word (ftext x) = true) ->
    exists d h, line_words (tick_str ftext t) = [d; h; ":"; ftext (tk_value t); "(bid:"; ftext (tk_bid t) ++ ","; "ask:"; ftext (tk_ask t) ++ ","; "spread:";
        ftext (tk_spread t) ++ ")"]%string /\ shows " " (d ++ " " ++ h) (ar_wall (tk_dt t)).
  Proof.
    intros R Y W. destruct (date_words _ R) as (d & h & E & Wd & Wh). exists d, h.
    split.
    - pose proof (W _ (or_introl eq_refl)) as W1. pose proof (W _ (or_intror (or_introl eq_refl))) as W2.
      pose proof (W _ (or_intror (or_intror (or_introl eq_refl)))) as W3. pose proof (W _ (or_intror (or_intror (or_intror (or_introl eq_refl))))) as W4.
      pose proof R as R'. apply representable_year in R'.
      unfold line_words. replace (tick_str ftext t) with (d ++ String " " (h ++ String " " (":" ++ String " " (ftext (tk_value t) ++ String " " ("(bid:" ++ String " "
        ((ftext (tk_bid t) ++ ",") ++ String " " ("ask:" ++ String " " ((ftext (tk_ask t) ++ ",") ++ String " " ("spread:" ++ String " " (ftext (tk_spread t) ++ ")"))))))))))%string.
      + rewrite !words_space, words_end by (rewrite ?one_word_app; first [assumption | reflexivity | now rewrite ?W2, ?W3, ?W4]). reflexivity.
      + unfold tick_str. rewrite strftime_date, E by lia. rewrite !app_assoc_s. reflexivity.
    - change (shows " " (d ++ String " " h) (ar_wall (tk_dt t))). rewrite <- E. now apply date_text_shows.
  Qed.
  Lemma tick_line_order t t' : representable (ar_wall (tk_dt t)) -> representable (ar_wall (tk_dt t')) -> 1000 <= w_year (ar_wall (tk_dt t)) ->
    1000 <= w_year (ar_wall (tk_dt t')) -> ar_wall (tk_dt t) / 1000000 < ar_wall (tk_dt t') / 1000000 ->
    String.compare (tick_str ftext t) (tick_str ftext t') = Lt.
  Proof.
    intros R R' Y Y' L. pose proof (proj1 (representable_year _) R). pose proof (proj1 (representable_year _) R').
    unfold tick_str. rewrite !strftime_date by lia. rewrite cmp_app by now rewrite !stamp_length.
    rewrite cmp_dates by assumption. rewrite (proj2 (Z.compare_lt_iff _ _) L). reflexivity.
  Qed.
End line.
