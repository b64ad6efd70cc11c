(** Programs of C75. *)
From Coq Require Import QArith.
From Verif Require Export RequestsFills WorldExamples.
Open Scope Z_scope.

(** Opens are filled half a point dearer, then confirmed; a close makes the broker buy 1 again and then fail. *)
Definition broker : requests Q := fun _ j w =>
  match j with
  | JOpen i => match w_trades w !! i with
               | Some t => RSet (TwPrice (Qred (tr_ov t + (1#2)))) (fun _ => RSet (TwStatus CONFIRMED) (fun _ => RReturn))
               | None => RRaise TradeException
               end
  | JClose _ _ => RCall (COpen 0 (Dir BUY) 1 (Some 0%nat) "again") (fun _ _ => RRaise TradeException)
  end.
Lemma broker_modest : modest_requests broker.
Proof. intros pid j w. destruct j as [i|i n]; simpl; [destruct (w_trades w !! i); simpl; auto|]. split; [lia|]. now intros. Qed.
(** Buys 2 on every tick; the first request goes on meanwhile. *)
Definition hasty : lprograms Q := fun sid cb eid _ =>
  match cb with OnEveryTick => LCall (LApi (COpen eid (Dir BUY) 2 (Some sid) "")) (fun _ _ => LCall (LAct 0 0) (fun _ _ => LDone)) | _ => LDone end.
Lemma hasty_sane : sane_lprograms hasty.
Proof. intros sid cb eid w. destruct cb; simpl; auto. split; [lia|]. intros _ _. split; [exact I|]. now intros. Qed.
Definition idle : lprograms Q := fun _ _ _ _ => LDone.

Definition shop (k : pkind) : list (lop Q) :=
  map LOp [ONewProvider k; ONewStrategy "s0"; ONewEpic "A" (Some tz_UTC) 0 86399999999 None None (Some 0%nat); OAddStrategy 0 0].
Definition quote (s : Z) (b a : Q) : lop Q := LOp (OTick 0 (tk_s s b a)).
Definition api (c : cmd Q) : lop Q := LDo (LApi c).
Definition acts (l : list nat) : list (lop Q) := map (fun k => LDo (LAct 0 k)) l.
Definition day : list (lop Q) := shop PBase ++ [quote 1600000000 (100#1) (101#1); quote 1600000001 (104#1) (105#1)] ++
  acts [1; 0; 0]%nat ++ [api (CClose 0 (Some 1) "")] ++ acts [2; 2; 3]%nat.
Definition sheet (s : lstate Q) : list (Z * Z * Q * Q * status) :=
  map (fun t => (tr_oq t, closed_quantities t, Qred (tr_ov t), Qred (result t), tr_status t)) (w_trades (l_w s)).
Definition alive (s : lstate Q) : list (list bool) := map (fun p => map th_done (pv_threads p)) (w_provs (l_w s)).

(** A request that fills at a better price, one that is refused, fills of quantities. *)
Definition better : requests Q := fun _ _ _ => RSet (TwPrice (98#1)) (fun _ => RReturn).
Definition refusing : requests Q := fun _ _ _ => RSet (TwStatus REFUSED) (fun _ => RReturn).
Definition failing : requests Q := fun _ _ _ => RRaise TradeException.
Definition filling (q : Z) : requests Q := fun _ j _ => match j with JOpen _ => RSet (TwQuantity q) (fun _ => RReturn) | JClose _ _ => RReturn end.
Definition closing (q : Z) : requests Q := fun _ j _ => match j with JClose _ _ => RSet (TwQuantity q) (fun _ => RReturn) | JOpen _ => RReturn end.
Definition one_buy (k : pkind) (q : Z) : list (lop Q) := shop k ++ [quote 1600000000 (100#1) (101#1); api (COpen 0 (Dir BUY) q (Some 0%nat) "")].
Definition gain (s : lstate Q) : Q := match w_strats (l_w s) !! 0%nat with Some x => Qred (strategy_result (l_w s) x TNone) | None => 0%Q end.

(** A check of [careful_act] on concrete states. *)
Definition careful_act_b (rq : requests Q) (s : lstate Q) (pid k : nat) : bool :=
  match thread_of (l_w s) pid k with
  | None => true
  | Some th => th_done th ||
      match code rq s pid k (th_job th) with
      | RSet (TwQuantity q) _ => match th_job th with
                                 | JOpen i => match w_trades (l_w s) !! i with Some t => (closed_quantities t <=? q) && (q <=? tr_oq t) | None => true end
                                 | JClose _ _ => false
                                 end
      | RCall _ _ => false
      | _ => true
      end
  end.
Lemma careful_check rq s pid k : careful_act_b rq s pid k = true -> careful_act rq s pid k.
Proof.
  unfold careful_act_b. intros E th Ht Hd. rewrite Ht, Hd in E. simpl in E. destruct (code rq s pid k (th_job th)) as [|e|x r|c r]; auto; [|discriminate].
  destruct x as [a|v|q]; auto. destruct (th_job th) as [i|i n]; [|discriminate]. intros t Hi. rewrite Hi in E. apply andb_true_iff in E as [E1 E2].
  apply Z.leb_le in E1, E2. lia.
Qed.
Lemma idle_careful rq : careful_lprograms rq idle.
Proof. intros sid cb eid s _. exact I. Qed.
(** 5 bought, 2 of them closed, then the broker reports that only 3 were filled. *)
Definition part : list (lop Q) := one_buy PBase 5 ++ [api (CClose 0 (Some 2) "")] ++ acts [0; 0; 1]%nat.
Lemma part_careful : careful_lops (filling 3) idle empty_live part.
Proof.
  unfold part, one_buy, shop, acts. cbn [map app]. repeat (split; [first [exact I|vm_compute; discriminate|vm_compute; reflexivity|
    (match goal with |- careful_lop _ _ (api _) => simpl; unfold qty_ok; lia end)|apply careful_check; vm_compute; reflexivity]|]). exact I.
Qed.
