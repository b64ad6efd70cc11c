(** Python-level helpers shared by the whole model: exceptions as values,
    list indexing and slicing, insertion-ordered dictionaries, references. *)
From Coq Require Export ZArith Lia QArith Qround Qabs.
From stdpp Require Export base strings option relations.
From stdpp Require Export list.
Close Scope Q_scope.
Open Scope Z_scope.

(** Exceptions raised by the modelled code: estrade/exceptions.py:1-42 plus the
    Python built-in ones.  [Diverges] is the model's out-of-fuel value (a Python
    loop that did not finish), [Dangling] is the model's ill-formed object id,
    which cannot be written in Python. *)
Inductive exn :=
  | TimeException | TickException | EpicException | TradeException
  | TimeFrameException | BaseIndicatorException
  | ValueError | OverflowError | ZeroDivisionError | IndexError | KeyError
  | AttributeError | NotImplementedError | RuntimeError | RecursionError
  | Diverges | Dangling.

Inductive res (A : Type) := Ok (a : A) | Err (e : exn).
Arguments Ok {A} a.
Arguments Err {A} e.

Definition rbind {A B} (x : res A) (k : A -> res B) : res B :=
  match x with Ok a => k a | Err e => Err e end.
Definition rmap {A B} (f : A -> B) (x : res A) : res B :=
  match x with Ok a => Ok (f a) | Err e => Err e end.
Notation "'let!' x := e1 'in' e2" := (rbind e1 (fun x => e2))
  (at level 200, x pattern, e1 at level 100, e2 at level 200, right associativity).
Definition of_option {A} (e : exn) (o : option A) : res A :=
  match o with Some a => Ok a | None => Err e end.

Definition is_ok {A} (x : res A) : bool := match x with Ok _ => true | Err _ => false end.

(** Python [l[i]] for an integer index: negative indices count from the end,
    out of range raises IndexError ([None] here). *)
Definition py_index {A} (l : list A) (i : Z) : option A :=
  let n := Z.of_nat (length l) in
  if (0 <=? i) then (if i <? n then l !! Z.to_nat i else None)
  else if (- n <=? i) then l !! Z.to_nat (n + i) else None.

(** Python [l[i:]]: a negative start counts from the end and is clamped to 0. *)
Definition py_slice_from {A} (l : list A) (i : Z) : list A :=
  let n := Z.of_nat (length l) in
  if i <? 0 then drop (Z.to_nat (Z.max 0 (n + i))) l else drop (Z.to_nat i) l.

(** Insertion-ordered dictionaries with string keys (Python [dict]). *)
Definition dict (V : Type) := list (string * V).
Fixpoint dict_get {V} (d : dict V) (k : string) : option V :=
  match d with
  | [] => None
  | (k', v) :: d' => if String.eqb k' k then Some v else dict_get d' k
  end.
Fixpoint dict_set {V} (d : dict V) (k : string) (v : V) : dict V :=
  match d with
  | [] => [(k, v)]
  | (k', v') :: d' => if String.eqb k' k then (k', v) :: d' else (k', v') :: dict_set d' k v
  end.
Definition dict_keys {V} (d : dict V) : list string := map fst d.

(** estrade/mixins/ref.py:6-24, 34 [self._ref = ref or str(uuid4())[:5]]; [uuid] is the
    text produced by [uuid4] (an oracle). The empty string is falsy. *)
Definition make_ref (ref : option string) (uuid : string) : string :=
  match ref with
  | Some r => if String.eqb r "" then String.substring 0 5 uuid else r
  | None => String.substring 0 5 uuid
  end.
