(** The histories of frame sets (fs_hist, fs_log) within programs (C38, C44). *)
From Verif Require Import EpicHistProofs LogProofs CandleProofs IndicatorFinalProofs.
From Verif Require Export SpecIndicators.
From Coq Require Import QArith.
Open Scope Z_scope.

Section proofs.
  Context {F : Type} `{Num F}.
  Implicit Types (w : world F) (fs : fset F) (e : epic F) (tk : tick F).

  Lemma log_hist I G fs0 l rs fs : fs_log I G fs0 l rs fs -> fs_hist I no_exn fs0 fs.
  Proof. intros Hl. induction Hl as [|l rs fs i Hl IH Hi|l rs fs e Hl IH|l rs fs fuel tk mo lst fs' Hl IH Ht HG]; [constructor|now constructor|now constructor|econstructor; [exact IH|exact Ht|reflexivity]]. Qed.

  Lemma run_log_fine (P : cmd F -> Prop) pr l w eid e fid fs (I : indicator F -> Prop) fs0 lg rs :
    reach P w -> programs_ok P pr -> Forall (op_ok P) l -> frames_fine pr w l -> Forall (not_attaching fid) l -> (forall i, OAddIndicator fid i ∈ l -> I i) ->
    w_epics w !! eid = Some e -> attached_only w fid eid -> w_fsets w !! fid = Some fs -> fs_log I any_step fs0 lg rs fs ->
    exists fs' lg' new, w_fsets (run pr w l) !! fid = Some fs' /\ fs_log I any_step fs0 lg' (rs ++ new) fs' /\ map fst new = accepted pr w l eid /\
      Forall (fun x => snd x = true <-> market_hours e (ar_wall (tk_dt (fst x)))) new.
  Proof.
    intros Hr Hp Hl Hcl Hna Hadd He Hat Hf Hlog.
    destruct (run_fset_rel (fun ts fs => exists lg, fs_log I any_step fs0 lg (rs ++ map (fun tk => (tk, is_market_open e tk)) ts) fs) I (is_market_open e)) with (P := P) (pr := pr) (l := l) (w := w) (eid := eid) (e := e) (fid := fid) (fs := fs) (ts := @nil (tick F))
      as (fs' & F1 & lg' & F2); auto.
    - intros ts fs1 i Hi (lg1 & L1). exists lg1. now constructor.
    - intros ts fs1 tk fs2 (lg1 & L1) Ht. eexists. rewrite map_app, app_assoc. cbn [map]. econstructor; [exact L1|exact Ht|exact Logic.I].
    - apply Forall_forall. intros o Ho i ->. auto.
    - exists lg. cbn [map]. now rewrite app_nil_r.
    - cbn [app] in F2. exists fs', lg', (map (fun tk => (tk, is_market_open e tk)) (accepted pr w l eid)). split; [auto|]. split; [auto|]. split.
      + rewrite map_map. apply map_id.
      + apply Forall_forall. intros x Hx. apply elem_of_list_fmap in Hx as (tk & -> & _). apply market_open_spec.
  Qed.
  Lemma run_log (P : cmd F -> Prop) pr l w eid e fid fs (I : indicator F -> Prop) fs0 lg rs :
    reach P w -> programs_ok P pr -> Forall (op_ok P) l -> clean pr w l -> Forall (not_attaching fid) l -> (forall i, OAddIndicator fid i ∈ l -> I i) ->
    w_epics w !! eid = Some e -> attached_only w fid eid -> w_fsets w !! fid = Some fs -> fs_log I any_step fs0 lg rs fs ->
    exists fs' lg' new, w_fsets (run pr w l) !! fid = Some fs' /\ fs_log I any_step fs0 lg' (rs ++ new) fs' /\ map fst new = accepted pr w l eid /\
      Forall (fun x => snd x = true <-> market_hours e (ar_wall (tk_dt (fst x)))) new.
  Proof. intros Hr Hp Hl Hcl. apply (run_log_fine P); auto. now apply clean_frames. Qed.
End proofs.

Lemma run_candles (P : cmd Q -> Prop) pr l (w : world Q) eid e fid fs u q ref mx i ha fs0 lg rs fs' k f iv : 1 <= mx -> in_kind i = KCandle ha -> fset_init u q ref mx = Ok fs0 ->
  reach P w -> programs_ok P pr -> Forall (op_ok P) l -> clean pr w l -> Forall (not_attaching fid) l -> (forall j, OAddIndicator fid j ∈ l -> only i j) ->
  w_epics w !! eid = Some e -> attached_only w fid eid -> w_fsets w !! fid = Some fs -> fs_log (only i) any_step fs0 lg rs fs ->
  w_fsets (run pr w l) !! fid = Some fs' -> fs_heap fs' !! k = Some f -> value_at fs' (in_ref i) k = Some iv ->
  exists o hi lo la, c_open (fs_heap fs') f iv = Ok o /\ c_high (fs_heap fs') f iv = Ok hi /\ c_low (fs_heap fs') f iv = Ok lo /\ candle_last iv = Ok la /\
    (lo <= o /\ lo <= la /\ o <= hi /\ la <= hi)%Q.
Proof.
  intros Hmx Hk Hi Hr Hp Hl Hcl Hna Hadd He Hat Hf Hlog Hf' Hh Hv. destruct (run_log P pr l w eid e fid fs (only i) fs0 lg rs) as (fs2 & lg2 & new & F2 & L2 & _); auto.
  rewrite F2 in Hf'. apply (inj Some) in Hf' as ->. eapply candle_prices; eauto. eapply log_hist; eauto.
Qed.
