From Coq Require Import Ascii.
From Verif Require Import ReportProofs.
From Verif Require Export SpecReport.
Open Scope Z_scope.

Lemma make_ref_explicit r u : r <> ""%string -> make_ref (Some r) u = r.
Proof. intros Hr. unfold make_ref. destruct (String.eqb_spec r ""); [contradiction|auto]. Qed.

Lemma substring_take n l rest : (n <= length l)%nat -> String.substring 0 n (String.string_of_list_ascii l ++ rest) = String.string_of_list_ascii (take n l).
Proof.
  revert n. induction l as [|c l IH]; intros [|n] Hn; cbn [length] in Hn; try lia.
  - cbn. destruct rest; reflexivity.
  - cbn [take firstn String.string_of_list_ascii]. rewrite append_cons. reflexivity.
  - cbn [take firstn String.string_of_list_ascii]. rewrite append_cons. cbn [String.substring]. f_equal. apply IH. lia.
Qed.
Lemma make_ref_default a u : a = None \/ a = Some ""%string -> uuid_text u ->
  exists l rest, length l = 5%nat /\ Forall (fun c => c ∈ hex_digits) l /\ u = (String.string_of_list_ascii l ++ rest)%string /\ make_ref a u = String.string_of_list_ascii l.
Proof.
  intros Ha (l & rest & -> & Hl & Hf). assert (make_ref a (String.string_of_list_ascii l ++ rest) = String.substring 0 5 (String.string_of_list_ascii l ++ rest)) as -> by (destruct Ha as [-> | ->]; reflexivity).
  destruct l as [|c1 [|c2 [|c3 [|c4 [|c5 [|c6 [|c7 [|c8 [|]]]]]]]]]; try discriminate Hl. exists [c1; c2; c3; c4; c5], (String c6 (String c7 (String c8 rest))).
  split; [auto|]. split; [|split; [reflexivity|]].
  - exact (Forall_take _ 5 _ Hf).
  - rewrite (substring_take 5); [reflexivity|simpl; lia].
Qed.

(** All words of length [n]. *)
Fixpoint words (n : nat) : list (list ascii) :=
  match n with 0%nat => [[]] | S n' => flat_map (fun c => map (cons c) (words n')) hex_digits end.
Lemma words_in n l : length l = n -> Forall (fun c => c ∈ hex_digits) l -> In l (words n).
Proof.
  revert n. induction l as [|c l IH]; intros n Hn Hf; subst n; [now left|]. apply Forall_cons in Hf as [Hc Hf]. cbn [length words].
  apply in_flat_map. exists c. split; [now apply elem_of_list_In|]. apply in_map. now apply IH.
Qed.
Lemma flat_map_len {A B} (g : A -> list B) k l : (forall a, Z.of_nat (length (g a)) = k) -> Z.of_nat (length (flat_map g l)) = Z.of_nat (length l) * k.
Proof. intros Hg. induction l as [|a l IH]; [simpl; lia|]. cbn [flat_map length]. rewrite app_length, Nat2Z.inj_add, IH, Hg. lia. Qed.
Lemma words_length n : Z.of_nat (length (words n)) = 16 ^ Z.of_nat n.
Proof.
  induction n as [|n IH]; [reflexivity|]. cbn [words]. rewrite (flat_map_len _ (16 ^ Z.of_nat n)); [|intros a; now rewrite map_length].
  rewrite Nat2Z.inj_succ, Z.pow_succ_r by lia. reflexivity.
Qed.
Lemma words_sound n l : In l (words n) -> length l = n /\ Forall (fun c => c ∈ hex_digits) l.
Proof.
  revert l. induction n as [|n IH]; intros l Hl.
  - destruct Hl as [<-|[]]. auto.
  - cbn [words] in Hl. apply in_flat_map in Hl as (c & Hc & Hl). apply in_map_iff in Hl as (l' & <- & Hl'). apply IH in Hl' as [E Hf]. split; [simpl; congruence|].
    constructor; [now apply elem_of_list_In|auto].
Qed.
Lemma hex_nodup : NoDup hex_digits.
Proof. apply (bool_decide_unpack _). vm_compute. exact I. Qed.
Lemma flat_map_cons_nodup (L : list ascii) (ws : list (list ascii)) : NoDup L -> NoDup ws -> NoDup (flat_map (fun c => map (cons c) ws) L).
Proof.
  intros HL Hw. induction HL as [|c L Hc HL IH]; cbn [flat_map]; [constructor|]. apply NoDup_app. split; [|split; [|exact IH]].
  - apply (NoDup_fmap_2 (cons c)). exact Hw.
  - intros x Hx Hx'. apply elem_of_list_In, in_map_iff in Hx as (y & <- & _). apply elem_of_list_In, in_flat_map in Hx' as (c' & Hc' & Hy). apply in_map_iff in Hy as (z & E & _).
    injection E as -> _. apply Hc. now apply elem_of_list_In.
Qed.
Lemma words_nodup n : NoDup (words n).
Proof. induction n as [|n IH]; [apply NoDup_singleton|]. apply flat_map_cons_nodup; [apply hex_nodup|exact IH]. Qed.

Lemma soa_inj a b : String.string_of_list_ascii a = String.string_of_list_ascii b -> a = b.
Proof. intros E. rewrite <- (String.list_ascii_of_string_of_list_ascii a), <- (String.list_ascii_of_string_of_list_ascii b). now rewrite E. Qed.

Lemma dup_exists {A} `{EqDecision A} (l : list A) : ~ NoDup l -> exists i j x, (i < j)%nat /\ l !! i = Some x /\ l !! j = Some x.
Proof.
  induction l as [|y l IH]; intros Hn; [elim Hn; constructor|]. destruct (decide (y ∈ l)) as [Hy|Hy].
  - apply elem_of_list_lookup in Hy as [j Hj]. exists 0%nat, (S j), y. split; [lia|]. auto.
  - destruct IH as (i & j & x & Hij & Hi & Hj); [intros Hl; apply Hn; now constructor|]. exists (S i), (S j), x. split; [lia|]. auto.
Qed.

Lemma refs_collide l : Forall uuid_text l -> 16 ^ 5 < Z.of_nat (length l) ->
  exists i j u v, (i < j)%nat /\ l !! i = Some u /\ l !! j = Some v /\ make_ref None u = make_ref None v.
Proof.
  intros Hl Hn. set (f := make_ref None). destruct (dup_exists (map f l)) as (i & j & x & Hij & Hi & Hj).
  - intros Hd. assert (incl (map f l) (map String.string_of_list_ascii (words 5))) as Hin.
    { intros x Hx. apply in_map_iff in Hx as (u & <- & Hu). rewrite Forall_forall in Hl. destruct (make_ref_default None u) as (w & rest & Hw & Hf & _ & E); [auto|apply Hl; now apply elem_of_list_In|].
      unfold f. rewrite E. apply in_map. now apply words_in. }
    apply NoDup_incl_length in Hin; [|now apply NoDup_ListNoDup]. rewrite !map_length in Hin. apply inj_le in Hin. rewrite (words_length 5) in Hin.
    change (16 ^ Z.of_nat 5) with (16 ^ 5) in Hin. lia.
  - change (map f l) with (f <$> l) in *. apply list_lookup_fmap_Some in Hi as (u & Hu & ->). apply list_lookup_fmap_Some in Hj as (v & Hv & E). exists i, j, u, v. auto.
Qed.

(** 16^5 references can be distinct. *)
Lemma refs_distinct : exists l, Forall uuid_text l /\ Z.of_nat (length l) = 16 ^ 5 /\ NoDup (map (make_ref None) l).
Proof.
  exists (map (fun w => String.string_of_list_ascii w ++ "000")%string (words 5)). split; [|split].
  - apply Forall_forall. intros u Hu. apply elem_of_list_In, in_map_iff in Hu as (w & <- & Hw). apply words_sound in Hw as [Hl Hf].
    exists (w ++ ["0"; "0"; "0"]%char), ""%string. split; [|split].
    + clear. induction w as [|c w IH]; [reflexivity|]. cbn [String.string_of_list_ascii]. rewrite append_cons, IH. reflexivity.
    + rewrite app_length. simpl. lia.
    + apply Forall_app. split; [auto|]. repeat constructor.
  - rewrite map_length. apply (words_length 5).
  - rewrite map_map. assert (forall w, In w (words 5) -> make_ref None (String.string_of_list_ascii w ++ "000") = String.string_of_list_ascii w) as E.
    { intros w Hw. apply words_sound in Hw as [Hl _]. unfold make_ref. rewrite substring_take by lia. now rewrite take_ge by lia. }
    rewrite (map_ext_in _ _ _ E). assert (Inj (=) (=) String.string_of_list_ascii) as Hinj by exact soa_inj. apply (NoDup_fmap_2 String.string_of_list_ascii). apply words_nodup.
Qed.
