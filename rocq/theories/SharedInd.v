(** Indicator objects registered with several frame sets: an object is one, whatever the number of frame sets that hold it. *)
From Verif Require Export World.
Open Scope Z_scope.

Section shared.
  Context {F : Type} `{Num F}.

  (** base_indicator.py:122-139, rsi.py:112-127: the attributes of an indicator object; [ob_set] is [self.frame_set] (id of a frame set). *)
  Record iobj := { ob_ind : indicator F; ob_set : option nat }.
  (** Programs: objects are created, then registered with [frame_set.add_indicator(indicator)]; the rest is World.v. *)
  Inductive sop := XNew (i : indicator F) | XAdd (fs obj : nat) | XOp (o : op F).
  (** [s_regs]: the dictionary [indicators] of each frame set (frame_set.py:172), holding ids of objects. In [s_w] the dictionaries of the frame
      sets have the present attributes of these objects. *)
  Record sworld := { s_w : world F; s_objs : list iobj; s_regs : list (dict nat) }.

  (** base_indicator.py:153-154 and rsi.py:129-135 [set_frame_set] *)
  Definition set_frame_set (ob : iobj) (f : nat) (fs : fset F) : iobj * res unit :=
    match in_kind (ob_ind ob) with
    | KRSI p _ =>
        let n := p * fs_q fs in
        ({| ob_ind := {| in_ref := in_ref (ob_ind ob); in_mopen := in_mopen (ob_ind ob); in_kind := KRSI p (Some n) |}; ob_set := Some f |},
         if fs_max fs <? n then Err BaseIndicatorException else Ok ())
    | _ => ({| ob_ind := ob_ind ob; ob_set := Some f |}, Ok ())
    end.
  (** What a frame set reads through its dictionary. *)
  Definition attributes (objs : list iobj) (d : dict nat) : dict (indicator F) :=
    omap (fun x => match objs !! snd x with Some ob => Some (fst x, ob_ind ob) | None => None end) d.
  Definition reread (objs : list iobj) (regs : list (dict nat)) (w : world F) : world F :=
    upd_fsets w (imap (fun g fs => match regs !! g with Some d => fs_set_inds fs (attributes objs d) | None => fs end) (w_fsets w)).

  (** frame_set.py:189-191 [add_indicator] *)
  Definition sadd (s : sworld) (f o : nat) : sworld * res unit :=
    match w_fsets (s_w s) !! f, s_objs s !! o, s_regs s !! f with
    | Some fs, Some ob, Some d =>
        let '(ob', r) := set_frame_set ob f fs in
        let objs := <[o := ob']> (s_objs s) in
        let regs := <[f := dict_set d (in_ref (ob_ind ob)) o]> (s_regs s) in
        ({| s_w := reread objs regs (s_w s); s_objs := objs; s_regs := regs |}, r)
    | _, _, _ => (s, Err Dangling)
    end.
  Definition snew (s : sworld) (i : indicator F) : sworld :=
    {| s_w := s_w s; s_objs := s_objs s ++ [{| ob_ind := i; ob_set := None |}]; s_regs := s_regs s |}.
  (** A new frame set has an empty dictionary. *)
  Definition sstep (pr : programs F) (s : sworld) (x : sop) : sworld * res unit :=
    match x with
    | XNew i => (snew s i, Ok ())
    | XAdd f o => sadd s f o
    | XOp (OAddIndicator f i) => sadd (snew s i) f (length (s_objs s))
    | XOp o =>
        let '(w', r) := step pr (s_w s) o in
        ({| s_w := w'; s_objs := s_objs s; s_regs := s_regs s ++ replicate (length (w_fsets w') - length (s_regs s)) [] |}, r)
    end.
  Definition s_empty : sworld := {| s_w := empty_world; s_objs := []; s_regs := [] |}.
  Definition srun (pr : programs F) (l : list sop) : sworld := fold_left (fun s x => fst (sstep pr s x)) l s_empty.

  (** base_indicator.py:141-151 [epic] *)
  Definition indicator_epic (s : sworld) (o : nat) : option nat :=
    match s_objs s !! o with
    | Some ob => match ob_set ob with
                 | Some f => match w_fsets (s_w s) !! f with Some fs => fs_epic fs | None => None end
                 | None => None
                 end
    | None => None
    end.
End shared.
Arguments iobj F : clear implicits.
Arguments sop F : clear implicits.
Arguments sworld F : clear implicits.
