(** C57: walking between the values of an indicator (estrade/graph/base_indicator.py:48-96). *)
From Verif Require Import TightenMoreProofs FrameExamples NavigationProofs IndicatorExamples.
Open Scope Z_scope.

(** In every history of a frame set, exceptions included: [next] is the value on the following frame (None on an evicted
    frame and on the current one). *)
Theorem C57_next : forall {F} `{Num F} mx (fs : fset F) ref k f, 1 <= mx -> fs_reach mx fs -> fs_heap fs !! k = Some f ->
  iv_next (fs_heap fs) f ref = Ok (if (k <? oldest fs)%nat then None else option_map (pair (S k)) (value_at fs ref (S k))).
Proof. exact @nav_next. Qed.
Print Assumptions C57_next.

(** [previous] is the value on the closest earlier frame in memory that has one. *)
Theorem C57_previous : forall {F} `{Num F} mx (fs : fset F) ref k f, 1 <= mx -> fs_reach mx fs -> fs_heap fs !! k = Some f ->
  exists r, previous (fs_heap fs) f ref = Ok r /\ previous_value fs ref k r.
Proof. exact @nav_previous. Qed.
Print Assumptions C57_previous.

(** v.next.previous is v. *)
Theorem C57_next_previous : forall {F} `{Num F} mx (fs : fset F) ref k f v n v' g, 1 <= mx -> fs_reach mx fs ->
  fs_heap fs !! k = Some f -> value_at fs ref k = Some v ->
  iv_next (fs_heap fs) f ref = Ok (Some (n, v')) -> fs_heap fs !! n = Some g -> previous (fs_heap fs) g ref = Ok (Some (k, v)).
Proof. exact @nav_next_previous. Qed.
Print Assumptions C57_next_previous.

(** v.previous.next is v, for an indicator that listens to all ticks and was registered before the first one. *)
Theorem C57_previous_next : forall {F} `{Num F} u q ref mx i (T : tick F -> res unit -> Prop) fs0 fs k f v j pv, 1 <= mx -> in_mopen i = false ->
  fset_init u q ref mx = Ok fs0 -> fs_hist (only i) T (fst (add_indicator fs0 i)) fs ->
  fs_heap fs !! k = Some f -> value_at fs (in_ref i) k = Some v -> previous (fs_heap fs) f (in_ref i) = Ok (Some (j, pv)) ->
  S j = k /\ exists g, fs_heap fs !! j = Some g /\ iv_next (fs_heap fs) g (in_ref i) = Ok (Some (k, v)).
Proof. exact @nav_previous_next. Qed.
Print Assumptions C57_previous_next.

(** The loop [v = v.previous] ends and sees every earlier value in memory, the most recent first; the loop [v = v.next] ends
    and sees the later values up to the first frame without one. *)
Theorem C57_walks : forall {F} `{Num F} mx (fs : fset F) ref k, 1 <= mx -> fs_reach mx fs -> (oldest fs <= k < length (fs_heap fs))%nat ->
  (forall l, back fs ref k l <-> l = reverse (values_on fs ref (oldest fs) (k - oldest fs))) /\
  (forall l, forth fs ref k l <-> l = run_of fs ref (S k) (length (fs_heap fs) - S k)).
Proof. exact @nav_walks. Qed.
Print Assumptions C57_walks.

(** [closed] is true exactly on the frames in memory before the current one. *)
Theorem C57_closed : forall {F} `{Num F} mx (fs : fset F) k f, 1 <= mx -> fs_reach mx fs -> fs_heap fs !! k = Some f -> (oldest fs <= k)%nat ->
  (iv_closed f = true <-> S k <> length (fs_heap fs)).
Proof. exact @nav_closed. Qed.
Print Assumptions C57_closed.

(** [nb_ticks] is the number of ticks received in the period of the frame, 1 for a frame without ticks. *)
Theorem C57_nb_ticks : forall {F} `{Num F} u q mx z (ts : list (tick F)) (fs : fset F) i f e,
  1 <= mx -> u <> TICK -> 0 < q -> no_skip z -> comparable ts -> fs_run u q mx ts fs -> in_order z ts ->
  fs_heap fs !! i = Some f -> fr_end f = Some e ->
  iv_nb_ticks f = Z.max 1 (Z.of_nat (length (ticks_in (ar_wall (fr_start f)) (ar_wall e) ts))).
Proof. exact @nb_ticks_spec. Qed.
Print Assumptions C57_nb_ticks.

(** Eight frames, three in memory. *)
Definition fs57 : fset Q := run_ex jp 1 3.
Example C57_ex : fs_hist (only jp) no_exn (fst (add_indicator (fs0 MINUTE 1 3) jp)) fs57 /\ fs_reach 3 fs57 /\ oldest fs57 = 5%nat /\
  map fst (reverse (values_on fs57 "jp" 5 2)) = [6; 5]%nat /\ map fst (run_of fs57 "jp" 6 2) = [6; 7]%nat /\
  map iv_closed (fs_heap fs57) = [false; false; false; false; false; true; true; false].
Proof.
  assert (fs_hist (only jp) no_exn (fst (add_indicator (fs0 MINUTE 1 3) jp)) fs57) as Hh by (apply with_ind_hist0; computes).
  split; [exact Hh|]. split; [eapply reach_hist; [|exact Hh]; apply reach_indicator, (reach_init _ MINUTE 1 "fs"), fs0_init; computes|]. repeat split; computes.
Qed.

(** Finding: an indicator with market_open_only, frames with the market open, closed, open.  The value of the third frame
    has the first one as previous value, which has no next value. *)
Definition ticks57 : list (tick Q * bool) :=
  [(tk_at tz_UTC w_leap 1000, true); (tk_at tz_UTC (w_leap + US_MIN) 1001, false); (tk_at tz_UTC (w_leap + 2 * US_MIN) 1002, true)].
Theorem C57_previous_next_refuted : exists i (fs : fset Q) f g v pv, in_mopen i = true /\
  fs_hist (only i) no_exn (fst (add_indicator (fs0 MINUTE 1 5) i)) fs /\
  fs_heap fs !! 2%nat = Some f /\ value_at fs (in_ref i) 2 = Some v /\ previous (fs_heap fs) f (in_ref i) = Ok (Some (0%nat, pv)) /\
  fs_heap fs !! 0%nat = Some g /\ iv_next (fs_heap fs) g (in_ref i) = Ok None.
Proof.
  exists jp_open_only, (with_ind jp_open_only MINUTE 1 5 ticks57), (frame_at (with_ind jp_open_only MINUTE 1 5 ticks57) 2),
    (frame_at (with_ind jp_open_only MINUTE 1 5 ticks57) 0), (val (with_ind jp_open_only MINUTE 1 5 ticks57) "jp" 2), (val (with_ind jp_open_only MINUTE 1 5 ticks57) "jp" 0).
  split; [reflexivity|]. split; [apply with_ind_hist0; computes|]. split; [apply frame_at_lookup; vm_compute; lia|].
  split; [apply val_value; computes|]. split; [computes|]. split; [apply frame_at_lookup; vm_compute; lia|]. computes.
Qed.
Print Assumptions C57_previous_next_refuted.
