(** Lemmas for statements added after mutation testing (C16, C22, C38). *)
From Verif Require Import MarketProofs ThreadProofs FrameFinalProofs.
Open Scope Z_scope.

Section proofs.
  Context {F : Type} `{Num F}.
  Implicit Types (w : world F).

  Lemma thread_status w pid k p th : w_provs w !! pid = Some p -> pv_threads p !! k = Some th -> th_done th = false ->
    let w' := run_thread w pid k in
    match answer (pv_kind p) (th_job th) with
    | Some s => has_target w (th_job th) -> has_status w' (th_job th) s
    | None => w_trades w' = w_trades w
    end.
  Proof.
    intros Hp Ht Hd. cbv zeta. unfold run_thread. rewrite Hp, Ht, Hd. cbn [w_trades upd_provs upd_trades].
    destruct (th_job th) as [i|i c] eqn:Ej; destruct (pv_kind p) as [| |so sc] eqn:Ek; cbn [answer]; auto; unfold has_target, has_status, job_effect; cbn [w_trades upd_provs upd_trades].
    1,2: intros (t & Et); rewrite list_lookup_alter, Et; eexists; split; reflexivity.
    1,2: intros (t & x & Et & Ex); rewrite list_lookup_alter, Et; eexists; eexists; split; [reflexivity|]; cbn [tr_closes set_closes]; rewrite list_lookup_alter, Ex; split; reflexivity.
  Qed.

  Lemma close_price mx (fs : fset F) j id f iv la : 1 <= mx -> fs_reach mx fs -> fs_frames fs !! j = Some id -> fs_heap fs !! id = Some f -> candle_last iv = Ok la ->
    (fs_current_id fs = Some id -> c_close f iv = Ok None) /\ (fs_current_id fs <> Some id -> c_close f iv = Ok (Some la)).
  Proof.
    intros Hmx Hr Hj Hf Hl. pose proof (mem_closed mx fs j id f Hmx Hr Hj Hf) as Hc. unfold c_close. rewrite Hl. split; intros Hi.
    - apply Hc in Hi. now rewrite Hi.
    - destruct (frame_closed f); [reflexivity|]. elim Hi. now apply Hc.
  Qed.

  Lemma first_tick pr l eid (e : epic F) tk : (tz_id (ep_tz e) = 0%nat -> ep_tz e = tz_UTC) -> w_epics (run pr empty_world l) !! eid = Some e -> accepted pr empty_world l eid = [] ->
    (refused e tk <-> ar_utc (tk_dt tk) < -25567 * 86400000000).
  Proof.
    intros Hz He Ha. assert (ep_last e = fake_tick) as El.
    { pose proof (from_run_epic pr empty_world l eid e) as Hin. rewrite Ha in Hin. assert (ep_last e ∈ [fake_tick]) as Hin' by (apply Hin; [intros ? ? E; discriminate|exact He]). now apply elem_of_list_singleton in Hin'. }
    unfold refused, arrow_ltb. rewrite El. cbn [fake_tick tk_dt arrow_of_utc arrow_to ar_tz ar_utc ar_wall tz_id tz_UTC]. destruct (Nat.eqb_spec (tz_id (ep_tz e)) 0) as [E0|E0].
    - rewrite (Hz E0). cbn. rewrite Z.ltb_lt. lia.
    - rewrite Z.ltb_lt. cbn. lia.
  Qed.
End proofs.
