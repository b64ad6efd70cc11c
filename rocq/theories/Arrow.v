(** [arrow.Arrow] values (arrow 0.17.0), as used by estrade. *)
From Verif Require Export Calendar.

(** A tzinfo object.  [tz_id] is its identity; the conversions are arbitrary functions of
    the UTC instant / the wall clock (microseconds); [tz_resolve] is dateutil's
    [resolve_imaginary] applied by arrow's [shift] to wall times that do not exist. *)
Record tzinfo := {
  tz_id : nat;
  tz_wall : Z -> Z;      (* UTC instant -> wall clock *)
  tz_utc : Z -> Z;       (* wall clock -> UTC instant *)
  tz_resolve : Z -> Z;
}.

(** The UTC zone ([dateutil.tz.tzutc()]). *)
Definition tz_UTC : tzinfo := {| tz_id := 0; tz_wall u := u; tz_utc w := w; tz_resolve w := w |}.
(** A zone with a constant offset [off]. *)
Definition tz_fixed (i : nat) (off : Z) : tzinfo :=
  {| tz_id := i; tz_wall u := u + off; tz_utc w := w - off; tz_resolve w := w |}.

Record arrow := { ar_utc : Z; ar_wall : Z; ar_tz : tzinfo }.

Definition arrow_of_utc (z : tzinfo) (u : Z) : arrow :=
  {| ar_utc := u; ar_wall := tz_wall z u; ar_tz := z |}.
Definition arrow_of_wall (z : tzinfo) (w : Z) : arrow :=
  {| ar_utc := tz_utc z w; ar_wall := w; ar_tz := z |}.

(** [dt.to(tz)] *)
Definition arrow_to (z : tzinfo) (a : arrow) : arrow := arrow_of_utc z (ar_utc a).

(** [a < b]: arrow compares the underlying datetimes; CPython compares wall clocks when both
    carry the same tzinfo object and UTC instants otherwise. *)
Definition arrow_ltb (a b : arrow) : bool :=
  if Nat.eqb (tz_id (ar_tz a)) (tz_id (ar_tz b)) then ar_wall a <? ar_wall b else ar_utc a <? ar_utc b.
(** [a >= b] *)
Definition arrow_geb (a b : arrow) : bool := negb (arrow_ltb a b).

(** [a - timedelta(...)]: wall-clock arithmetic in the same zone. *)
Definition arrow_sub_td (a : arrow) (us : Z) : res arrow :=
  let! w := w_add (ar_wall a) (- us) in Ok (arrow_of_wall (ar_tz a) w).

(** The date part, as a day number. *)
Definition arrow_date (a : arrow) : Z := w_days (ar_wall a).
