(** C76: the two kinds of numbers are ordered as needed. *)
From Coq Require Import QArith Lqa.
From Flocq Require Import Core BinarySingleNaN.
From Verif Require Import FloatProofs.
From Verif Require Export SpecRepeat.
From Coq Require Import Reals Lra.

Lemma less_than_Q : less_than Q.
Proof.
  assert (forall x y : Q, fltb x y = true <-> (x < y)%Q) as Hs.
  { intros x y. simpl. rewrite negb_true_iff. split; intros E.
    - apply Qnot_le_lt. intros Hl. apply Qle_bool_iff in Hl. congruence.
    - destruct (Qle_bool y x) eqn:El; [|auto]. apply Qle_bool_iff in El. now apply Qle_not_lt in El. }
  split.
  - intros x. destruct (fltb x x) eqn:E; [|auto]. apply Hs in E. now apply Qlt_irrefl in E.
  - intros x y z Hx Hy. apply Hs in Hx, Hy. apply Hs. now apply (Qlt_trans _ y).
Qed.
Lemma less_than_b64 : less_than b64.
Proof.
  split.
  - intros x. destruct (is_finite x) eqn:Fx.
    + destruct (fltb x x) eqn:E; [|auto]. apply flt_fin in E; auto. lra.
    + destruct x as [s|s| |s m e Hb]; try discriminate; [now destruct s|reflexivity].
  - intros x y z Hx Hy. destruct (is_finite x) eqn:Fx, (is_finite y) eqn:Fy, (is_finite z) eqn:Fz.
    { apply flt_fin in Hx; auto. apply flt_fin in Hy; auto. apply flt_fin; auto. lra. }
    all: destruct x as [sx|[|]| |[|] mx ex Bx]; try discriminate; destruct y as [sy|[|]| |[|] my ey By]; try discriminate; destruct z as [sz|[|]| |[|] mz ez Bz]; try discriminate; reflexivity.
Qed.
