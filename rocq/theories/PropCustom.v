(** Indicator classes written by a user (C62). *)
From Verif Require Import IndicatorExamples LogProofs CustomExamples.
Open Scope Z_scope.

(** C62: the value of a user's indicator class on a frame is made at the first tick of the frame the indicator listens to; its
    [on_new_tick] is then called exactly once for each later tick of the frame, in the order received, with its own frame showing the ticks
    up to this one and every earlier frame showing what it shows at the end of the history. *)
Theorem C62_told : forall {F} `{Num F} u q ref mx i mk tl G fs0 l rs fs k b, 1 <= mx -> fset_init u q ref mx = Ok fs0 -> in_kind i = KCustom mk tl ->
  fs_log (only i) G (fst (add_indicator fs0 i)) l rs fs -> l !! k = Some b ->
  exists past, earlier l fs (in_ref i) k past /\ tells i mk tl past b (value_at fs (in_ref i) k).
Proof. exact @log_tells. Qed.
Print Assumptions C62_told.
(** A class that looks at the ticks it is given only: a fold over the ticks of the frame from the first one the indicator listens to. *)
Theorem C62_fold : forall {F} `{Num F} u q ref mx i mk tl (g : tick F -> list F) (f : list F -> tick F * bool -> list F) G fs0 l rs fs k b, 1 <= mx -> fset_init u q ref mx = Ok fs0 -> in_kind i = KCustom mk tl ->
  (forall p o, mk p o = Some (g (v_last o))) -> (forall p o t mo d, tl p o t mo d = Some (f d (t, mo))) ->
  fs_log (only i) G (fst (add_indicator fs0 i)) l rs fs -> l !! k = Some b ->
  custom_data (value_at fs (in_ref i) k) = match from_heard i b with [] => None | (t, _) :: b' => Some (fold_left f b' (g t)) end.
Proof. exact @log_fold. Qed.
Print Assumptions C62_fold.

(** An exponential average carried from frame to frame, three frames in memory. *)
Example C62_ex : let fs := run_ex ema 2 3 in let l := log_of ema MINUTE 2 3 (minutes w_leap vs_ex) in
  fs_log (only ema) any_step (fst (add_indicator (fs0 MINUTE 2 3) ema)) l (minutes w_leap vs_ex) fs /\ map length l = [1; 2; 2; 2; 1]%nat /\
  map (fun k => custom_data (value_at fs "ema" k)) [0; 1; 2; 3; 4]%nat =
    [Some [10%Q; 10%Q]; Some [10%Q; 1999 # 200]; Some [1999 # 200; 8017 # 800]; Some [8017 # 800; 32147 # 3200]; Some [32147 # 3200; 128857 # 12800]].
Proof. split; [exact ema_log|]. split; computes. Qed.
(** A class for the open market counting the ticks it is told: of the six ticks of the first frame, two come before the market opens and one
    while it is closed again; the latter is told as well. *)
Example C62_ex_fold : let fs := fs_cnt in let l := log_of cnt MINUTE 15 5 ticks_cnt in
  fs_log (only cnt) any_step (fst (add_indicator (fs0 MINUTE 15 5) cnt)) l ticks_cnt fs /\
  (forall p o, cnt_make p o = Some ((fun _ => [1%Q; 0%Q]) (v_last o))) /\ (forall p o t mo d, cnt_tell p o t mo d = Some (cnt_step d (t, mo))) /\
  map (map snd) l = [[false; false; true; true; false; true]; [false]; [true]] /\
  map (fun k => custom_data (value_at fs "cnt" k)) [0; 1; 2]%nat = [Some [3%Q; 1%Q]; None; Some [1%Q; 0%Q]].
Proof. split; [exact cnt_log|]. split; [reflexivity|]. split; [reflexivity|]. split; computes. Qed.
(** Code that raises stops the tick. *)
Example C62_ex_raise : snd (feedm [] (fst (add_indicator (fs0 MINUTE 15 5) picky)) (minutes w_leap vs_ex)) = Err BaseIndicatorException /\
  snd (feedm [] (fst (add_indicator (fs0 MINUTE 15 5) picky)) (minutes w_leap [1000; 998; 1000])) = Ok ().
Proof. split; computes. Qed.
