(** C77, C80: which error a file that cannot be read gives. *)
From Coq Require Import String Ascii List Arith ZArith QArith Bool.
From Verif Require Import Base NamesModel SubsetModel MetaModel MetaSpec MetaTheorems.
Import ListNotations.
Open Scope nat_scope.

(** Without a group Header, the type of the file cannot be found. *)
Theorem C77_no_header : forall text_error is_date cosmology_ok f, dict_get (mf_groups f) (txt "Header") = None ->
  open_metadata text_error is_date cosmology_ok f = Err KeyError
  /\ forall k, (k = KFOF \/ k = KSOAP) -> read_metadata text_error is_date cosmology_ok k f = Err TypeError.
Proof.
  intros te d c f H. split.
  - unfold open_metadata. rewrite H. reflexivity.
  - assert (P : forall post, postprocess_header te d f (get_metadata f) = post -> post = Err TypeError).
    { intros post <-. unfold postprocess_header.
      assert (L : dict_get (get_metadata f) (txt "header") = Some VNone).
      { unfold get_metadata, metadata_fields_to_read. cbn [map fst snd].
        do 2 (match goal with |- dict_get (?a :: ?l) ?k = _ => change (dict_get (a :: l) k) with (dict_get l k) end).
        rewrite H. reflexivity. }
      rewrite L. reflexivity. }
    intros k K. unfold read_metadata. destruct K as [-> | ->]; cbn [bind]; rewrite (P _ eq_refl); reflexivity.
Qed.

Definition with_header (h : list (name * hval)) : mfile :=
  mk_mfile [ (txt "Header", mk_ginfo h []) ] [] None None None None.

(** Headers that stop the reading, and what the reader raises. *)
Theorem C77_errors :
  (* a time that is a text; one that is no array; an empty one *)
  open_metadata ValueError no_date fine (with_header [(txt "Time", HStrs [txt "now"])]) = Err RuntimeError
  /\ open_metadata ValueError no_date fine (with_header [(txt "Time", HNum 1%Q)]) = Err IndexError
  /\ open_metadata ValueError no_date fine (with_header [(txt "Redshift", HArr [])]) = Err IndexError
  (* masses that are texts *)
  /\ open_metadata ValueError no_date fine (with_header [(txt "MassTable", HStrs [txt "heavy"])]) = Err RuntimeError
  (* a box that is a text *)
  /\ open_metadata ValueError no_date fine (with_header [(txt "BoxSize", HStr (txt "big"))]) = Err ValueError
  (* a type that is no text *)
  /\ open_metadata ValueError no_date fine (with_header [(txt "OutputType", HNum 1%Q)]) = Err ValueError
  (* a date that is a number *)
  /\ open_metadata ValueError no_date fine (with_header [(txt "SnapshotDate", HNum 1%Q)]) = Err TypeError
  (* SOAP files without a number of halos, with an empty one, and with one that is a text *)
  /\ open_metadata ValueError no_date fine
       (with_header [(txt "OutputType", HStr (txt "SOAP")); (txt "NumPart_ThisFile", HArr [])]) = Err AttributeError
  /\ open_metadata ValueError no_date fine
       (with_header [(txt "OutputType", HStr (txt "SOAP")); (txt "NumPart_ThisFile", HArr []); (txt "NumSubhalos_ThisFile", HArr [])])
     = Err IndexError
  /\ open_metadata ValueError no_date fine
       (with_header [(txt "OutputType", HStr (txt "SOAP")); (txt "NumPart_ThisFile", HArr []); (txt "NumSubhalos_ThisFile", HStr (txt "x"))])
     = Err ValueError.
Proof. repeat (split; [vm_compute; reflexivity|]). vm_compute. reflexivity. Qed.

(** An attribute of a group that is not there, and one that is no number. *)
Theorem C80_errors : forall f g public attr,
  (dict_get (mf_groups f) g = None -> read_attribute f g public attr = Err KeyError)
  /\ (forall gi, dict_get (mf_groups f) g = Some gi -> dict_get (gi_attrs gi) attr = None -> read_attribute f g public attr = Err KeyError)
  /\ (forall gi s l, dict_get (mf_groups f) g = Some gi -> In (dict_get (gi_attrs gi) attr) [Some (HStr s); Some (HBytes s); Some (HStrs l)] ->
      read_attribute f g public attr = Err TypeError).
Proof.
  intros f g public attr. unfold read_attribute. split; [|split].
  - intros ->. reflexivity.
  - intros gi -> ->. reflexivity.
  - intros gi s l -> [<- | [<- | [<- | []]]]; reflexivity.
Qed.

Print Assumptions C77_no_header.
Print Assumptions C77_errors.
Print Assumptions C80_errors.
