(** estrade/graph/base_indicator.py: walking between the values of an indicator ([previous] is in Frames.v). *)
From Verif Require Export Frames.

Section navigation.
  Context {F : Type} `{Num F}.

  (** base_indicator.py:65-76 [BaseIndicatorValue.next] of the value of indicator [ref] on frame [fr]: the
      position of the next frame and the value found there. *)
  Definition iv_next (h : heap F) (fr : frame F) (ref : string) : res (option (nat * ivalue F)) :=
    match fr_next fr with
    | None => Ok None
    | Some n =>
        match h !! n with
        | None => Err Dangling
        | Some g => match dict_get (fr_inds g) ref with
                    | Some (Some iv) => Ok (Some (n, iv))
                    | _ => Ok None
                    end
        end
    end.
  (** base_indicator.py:78-86 [nb_ticks] and 88-96 [closed]: those of the parent frame. *)
  Definition iv_nb_ticks (fr : frame F) : Z := fr_nb fr.
  Definition iv_closed (fr : frame F) : bool := frame_closed fr.
End navigation.
