(** Indicator classes of a user: an exponential average of the closes, and a class that keeps the range of its ticks (C62). *)
From Verif Require Import IndicatorExamples LogProofs.
Open Scope Z_scope.

(** The average of the closest earlier frame that has one. *)
Definition ema_before (past : list (fview Q)) : option Q :=
  fold_left (fun a v => match v_data v with Some [_; e] => Some e | _ => a end) past None.
(** [__init__]: [self.before = ...; self.value = ...]; [on_new_tick]: [self.value = ...] *)
Definition ema_next (p : option Q) (t : tick Q) : Q := match p with Some e => Qred ((3 # 4) * e + (1 # 4) * tk_value t) | None => tk_value t end.
Definition ema_make (past : list (fview Q)) (own : fview Q) : option (list Q) :=
  let p := ema_before past in Some [match p with Some e => e | None => tk_value (v_last own) end; ema_next p (v_last own)].
Definition ema_tell (past : list (fview Q)) (own : fview Q) (t : tick Q) (mo : bool) (d : list Q) : option (list Q) :=
  match d with [b; _] => Some [b; ema_next (Some b) t] | _ => None end.
Definition ema : indicator Q := {| in_ref := "ema"; in_mopen := false; in_kind := KCustom ema_make ema_tell |}.

(** Two ticks per frame of two minutes. *)
Lemma ema_goes : goes_well ema MINUTE 2 3 (minutes w_leap vs_ex).
Proof. computes. Qed.
Lemma ema_log : fs_log (only ema) any_step (fst (add_indicator (fs0 MINUTE 2 3) ema)) (log_of ema MINUTE 2 3 (minutes w_leap vs_ex)) (minutes w_leap vs_ex) (run_ex ema 2 3).
Proof. apply with_ind_log; [exact ema_goes|apply feed_ok_any]. Qed.

(** Counts the ticks it is told with the market open, and those with the market closed. *)
Definition cnt_make (past : list (fview Q)) (own : fview Q) : option (list Q) := Some [1%Q; 0%Q].
Definition cnt_step (d : list Q) (x : tick Q * bool) : list Q :=
  match d with [a; c] => if snd x then [Qred (a + 1); c] else [a; Qred (c + 1)] | _ => d end.
Definition cnt_tell (past : list (fview Q)) (own : fview Q) (t : tick Q) (mo : bool) (d : list Q) : option (list Q) := Some (cnt_step d (t, mo)).
Definition cnt : indicator Q := {| in_ref := "cnt"; in_mopen := true; in_kind := KCustom cnt_make cnt_tell |}.
(** The market is closed for two ticks, open for three, closed for one, then open. *)
Definition ticks_cnt : list (tick Q * bool) :=
  map (fun '(k, v, mo) => (tk_at tz_UTC (w_leap + k * US_MIN) v, mo)) [(0, 100, false); (1, 101, false); (2, 102, true); (3, 101, true); (4, 99, false); (5, 98, true); (20, 98, false); (33, 98, true)].
Definition fs_cnt : fset Q := with_ind cnt MINUTE 15 5 ticks_cnt.
Lemma cnt_goes : goes_well cnt MINUTE 15 5 ticks_cnt.
Proof. computes. Qed.
Lemma cnt_log : fs_log (only cnt) any_step (fst (add_indicator (fs0 MINUTE 15 5) cnt)) (log_of cnt MINUTE 15 5 ticks_cnt) ticks_cnt fs_cnt.
Proof. apply with_ind_log; [exact cnt_goes|apply feed_ok_any]. Qed.

(** A class whose code raises at a value above 10: the tick is refused by the frame. *)
Definition picky_make (past : list (fview Q)) (own : fview Q) : option (list Q) := Some [].
Definition picky_tell (past : list (fview Q)) (own : fview Q) (t : tick Q) (mo : bool) (d : list Q) : option (list Q) :=
  if Qle_bool (tk_value t) (10 # 1) then Some [] else None.
Definition picky : indicator Q := {| in_ref := "picky"; in_mopen := false; in_kind := KCustom picky_make picky_tell |}.

