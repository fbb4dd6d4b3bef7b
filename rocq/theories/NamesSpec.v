(** Vocabulary for the statements about names. *)
From Coq Require Import String Ascii List Arith Bool.
From Verif Require Import NamesModel.
Import ListNotations.
Open Scope list_scope.

(** Position [i] starts a new word: an upper-case letter after a lower-case letter or a
    digit. *)
Definition word_start (n : name) (i : nat) : Prop :=
  exists a b, nth_error n i = Some b /\ is_upper b = true
              /\ 0 < i /\ nth_error n (i - 1) = Some a
              /\ (is_lower a = true \/ is_digit a = true).

Definition no_upper (n : name) : Prop := Forall (fun c => is_upper c = false) n.

(** CamelCase: starts with a capital, has no underscores, and every other capital
    starts a new word. *)
Definition camel (n : name) : Prop :=
  (exists c t, n = c :: t /\ is_upper c = true)
  /\ ~ In underscore n
  /\ (forall i c, 0 < i -> nth_error n i = Some c -> is_upper c = true -> word_start n i).

(** [reading fields attr i]: field [i] is the last one whose name becomes [attr]. *)
Definition last_named (conv : name -> name) (l : list name) (attr : name) (i : nat) : Prop :=
  (exists n, nth_error l i = Some n /\ conv n = attr)
  /\ forall j n, i < j -> nth_error l j = Some n -> conv n <> attr.

(** * Letters, independently of the model's character codes *)

Definition capitals : name := txt "ABCDEFGHIJKLMNOPQRSTUVWXYZ".
Definition smalls : name := txt "abcdefghijklmnopqrstuvwxyz".
Definition digits : name := txt "0123456789".

(** [d] is [c] as a small letter, or [c] itself if it is not a capital. *)
Definition lowered (c d : ascii) : Prop :=
  (exists i, nth_error capitals i = Some c /\ nth_error smalls i = Some d)
  \/ (~ In c capitals /\ d = c).

(** [d] is [c] as a capital, or [c] itself if it is not a small letter. *)
Definition raised (c d : ascii) : Prop :=
  (exists i, nth_error smalls i = Some c /\ nth_error capitals i = Some d)
  \/ (~ In c smalls /\ d = c).

Inductive capitalised : name -> name -> Prop :=
| capitalised_nil : capitalised [] []
| capitalised_cons : forall c d t u, raised c d -> Forall2 lowered t u -> capitalised (c :: t) (d :: u).

(** How many capitals there are in some names. *)
Fixpoint count_capitals (n : name) : nat :=
  match n with
  | [] => 0
  | c :: t => (if in_dec ascii_dec c capitals then 1 else 0) + count_capitals t
  end.

(** * Groups of SOAP files *)

(** Parts of a path between slashes. *)
Inductive parts : name -> list name -> Prop :=
| parts_one : forall w, ~ In "/"%char w -> parts w [w]
| parts_more : forall w g ws, ~ In "/"%char w -> parts g ws -> parts (w ++ "/"%char :: g) (w :: ws).

(** Words put together with something in between. *)
Inductive glued (sep : name) : list name -> name -> Prop :=
| glued_one : forall w, glued sep [w] w
| glued_more : forall w ws n, glued sep ws n -> glued sep (w :: ws) (w ++ sep ++ n).

(** Kinds of groups: name in the file, attribute, name for people. *)
Inductive soap_kind : name -> name -> name -> Prop :=
| k_bound : soap_kind (txt "BoundSubhalo") (txt "bound_subhalo") (txt "BoundSubhalo")
| k_input : soap_kind (txt "InputHalos") (txt "input_halos") (txt "InputHalos")
| k_inclusive : soap_kind (txt "InclusiveSphere") (txt "inclusive_sphere") (txt "InclusiveSphere")
| k_exclusive : soap_kind (txt "ExclusiveSphere") (txt "exclusive_sphere") (txt "ExclusiveSphere")
| k_so : soap_kind (txt "SO") (txt "spherical_overdensity") (txt "SphericalOverdensity")
| k_soap : soap_kind (txt "SOAP") (txt "soap") (txt "SOAP")
| k_aperture : soap_kind (txt "ProjectedAperture") (txt "projected_aperture") (txt "ProjectedAperture").
