(** The CSV text written by the reports reads back. *)
From Coq Require Import Ascii.
From Verif Require Import ReportProofs.
From Verif Require Export SpecText.
Open Scope Z_scope.

Definition str_app_assoc (a b c : string) : ((a ++ b) ++ c = a ++ (b ++ c))%string.
Proof. induction a as [|x a IH]; [reflexivity|]. rewrite !append_cons. now rewrite IH. Qed.
Lemma str_app_nil_r (a : string) : (a ++ "" = a)%string.
Proof. induction a as [|x a IH]; [reflexivity|]. rewrite append_cons. now rewrite IH. Qed.

(** A field without special characters. *)
Lemma read_plain s : has_special s = false -> forall st row fld rest, st = Before \/ st = Plain -> s <> EmptyString ->
  reading st row fld (s ++ rest) = reading Plain row (fld ++ s) rest.
Proof.
  induction s as [|c s IH]; intros Hs st row fld rest Hst Hn; [congruence|]. clear Hn. simpl in Hs. apply orb_false_iff in Hs as [Hc Hs].
  unfold special in Hc. repeat apply orb_false_iff in Hc as [Hc ?].
  assert (reading st row fld (String c s ++ rest) = reading Plain row (fld ++ String c "") (s ++ rest)) as ->.
  { rewrite append_cons. cbn [reading]. unfold COMMA, QUOTE, CR in *. rewrite Hc. destruct Hst as [-> | ->].
    - rewrite H2, H1. reflexivity.
    - rewrite H2, H1. reflexivity. }
  destruct s as [|d s].
  - rewrite append_nil. reflexivity.
  - rewrite IH; [|exact Hs|now right|discriminate]. f_equal. now rewrite str_app_assoc, append_cons, append_nil.
Qed.
(** The inside of a quoted field. *)
Lemma read_doubled s : forall row fld rest, reading Quoted row fld (doubled s ++ rest) = reading Quoted row (fld ++ s) rest.
Proof.
  induction s as [|c s IH]; intros row fld rest.
  - simpl doubled. rewrite append_nil. now rewrite str_app_nil_r.
  - simpl doubled. destruct (Ascii.eqb c QUOTE) eqn:E.
    + apply Ascii.eqb_eq in E. subst c. rewrite !append_cons. cbn [reading]. unfold QUOTE at 1 2. simpl Ascii.eqb. cbn iota.
      rewrite IH. f_equal. now rewrite str_app_assoc.
    + rewrite append_cons. cbn [reading]. unfold QUOTE in E. rewrite E. rewrite IH. f_equal. now rewrite str_app_assoc.
Qed.

(** What follows a field: a comma or an end of line. *)
Definition stops (rest : string) : Prop := exists r, rest = String COMMA r \/ rest = String CR (String LF r).
Lemma read_stop row fld rest : stops rest -> forall st, st = AfterQuote \/ st = Plain ->
  reading st row fld rest = reading Plain row fld rest.
Proof. intros [r [-> | ->]] st [-> | ->]; reflexivity. Qed.
Lemma read_field s row rest : stops rest -> s <> EmptyString \/ has_special s = true -> 
  reading Before row "" (csv_field s ++ rest) = reading Plain row s rest.
Proof.
  intros Hr Hs. unfold csv_field. destruct (has_special s) eqn:E.
  - rewrite append_cons, str_app_assoc. cbn [reading]. unfold QUOTE at 1. simpl Ascii.eqb. cbn iota.
    rewrite read_doubled, append_nil, append_cons, append_nil. cbn [reading]. unfold QUOTE at 1. simpl Ascii.eqb. cbn iota. apply read_stop; auto.
  - destruct Hs as [Hs|Hs]; [|congruence]. rewrite read_plain; auto.
Qed.
Lemma read_comma st row fld r : st <> Quoted -> reading st row fld (String COMMA r) = reading Before (row ++ [fld]) "" r.
Proof. destruct st; [reflexivity|reflexivity|congruence|reflexivity]. Qed.
Lemma read_field_comma s row r : reading Before row "" (csv_field s ++ String COMMA r) = reading Before (row ++ [s]) "" r.
Proof.
  destruct s as [|c s]; [reflexivity|]. rewrite read_field; [|eexists; left; reflexivity|left; discriminate].
  now apply read_comma.
Qed.
Lemma read_field_eol s row r : row <> [] \/ s <> EmptyString ->
  reading Before row "" (csv_field s ++ String CR (String LF r)) = (row ++ [s]) :: reading Before [] "" r.
Proof.
  intros Hs. destruct s as [|c s].
  - destruct row as [|x row]; [destruct Hs; congruence|]. reflexivity.
  - rewrite read_field; [|eexists; right; reflexivity|left; discriminate]. reflexivity.
Qed.
Lemma read_fields l : forall row r, l <> [] -> row <> [] \/ l <> [""%string] ->
  reading Before row "" (csv_fields l ++ String CR (String LF r)) = (row ++ l) :: reading Before [] "" r.
Proof.
  induction l as [|s l IH]; intros row r Hl Hn; [congruence|]. destruct l as [|s' l].
  - simpl csv_fields. rewrite read_field_eol; [reflexivity|]. destruct Hn as [Hn|Hn]; [now left|]. right. intros ->. now apply Hn.
  - change (csv_fields (s :: s' :: l)) with (csv_field s ++ String COMMA (csv_fields (s' :: l)))%string.
    rewrite str_app_assoc, append_cons, read_field_comma. rewrite IH; [|discriminate|left; now destruct row].
    now rewrite <- app_assoc.
Qed.
Lemma read_row l r : reading Before [] "" (csv_row l ++ r) = l :: reading Before [] "" r.
Proof.
  unfold csv_row. rewrite str_app_assoc, !append_cons, append_nil. destruct l as [|s l]; [reflexivity|].
  destruct (decide (s :: l = [""%string])) as [E|E].
  - injection E as -> ->. reflexivity.
  - assert (match s :: l with [""%string] => String QUOTE (String QUOTE "") | _ => csv_fields (s :: l) end = csv_fields (s :: l)) as ->.
    { destruct s; [|reflexivity]. destruct l; [congruence|reflexivity]. }
    rewrite read_fields; [reflexivity|discriminate|now right].
Qed.
Lemma csv_reads rows : read_csv (csv_text rows) = rows.
Proof.
  unfold read_csv. induction rows as [|r rows IH]; [reflexivity|]. simpl csv_text. now rewrite read_row, IH.
Qed.
