(** Model of _handle_provider.py, _file_utils.py and of how the constructors of
    metadata/objects.py, masks.py and reader.py and the functions of __init__.py and
    subset_writer.py use file handles.

    A handle is a number; [h5py.File] makes a new one, [close] closes it for good, and a
    closed handle is falsy.  Whether the n-th access to a file raises (a missing key, a
    missing file...) is decided by an arbitrary function, so that the theorems cover
    every file.  Remote files are not modelled. *)
From Coq Require Import List Bool Arith.
From Verif Require Import Base.
Import ListNotations.

(** [HandleProvider]: [_handle] and [handle_manager]. *)
Record prov := mkprov { p_handle : option nat; p_manager : bool }.

Record world := mkworld {
  w_open : list bool;            (* handles: open or closed *)
  w_user : list bool;            (* opened by the user, or by the library *)
  w_objs : list prov;            (* all objects with handles *)
  w_uses : list bool;            (* for every access to a file: was the handle open *)
  w_time : nat;                  (* number of attempted accesses *)
  w_fail : nat -> option pyerr   (* what goes wrong at each of them *)
}.

Definition M (A : Type) := world -> world * res A.
Definition ret {A} (a : A) : M A := fun w => (w, Ok a).
Definition mbind {A B} (m : M A) (f : A -> M B) : M B :=
  fun w => match m w with (w1, Ok a) => f a w1 | (w1, Err e) => (w1, Err e) end.
Notation "'let!' x := m 'in' f" := (mbind m (fun x => f)) (at level 200, x name, m at level 100, f at level 200).

Definition is_open (w : world) (h : nat) : bool := nth h (w_open w) false.
(** [bool(self._handle)] *)
Definition truthy (w : world) (h : option nat) : bool :=
  match h with None => false | Some h => is_open w h end.

Definition fault (w : world) : option pyerr := w_fail w (w_time w).
Definition tick (w : world) : world :=
  mkworld (w_open w) (w_user w) (w_objs w) (w_uses w) (S (w_time w)) (w_fail w).

(** [h5py.File(...)] *)
Definition h5open (user : bool) : M nat := fun w =>
  match fault w with
  | Some e => (tick w, Err e)
  | None => (mkworld (w_open w ++ [true]) (w_user w ++ [user]) (w_objs w) (w_uses w)
                     (S (w_time w)) (w_fail w), Ok (length (w_open w)))
  end.

(** [handle.close()] *)
Definition h5close (h : nat) : M unit := fun w =>
  (mkworld (upd h false (w_open w)) (w_user w) (w_objs w) (w_uses w) (w_time w) (w_fail w), Ok tt).

(** [handle[...]], reading; h5py raises [ValueError] if the file is closed. *)
Definition access (h : nat) : M unit := fun w =>
  let w1 := mkworld (w_open w) (w_user w) (w_objs w) (is_open w h :: w_uses w)
                    (S (w_time w)) (w_fail w) in
  if negb (is_open w h) then (w1, Err ValueError)
  else match fault w with Some e => (w1, Err e) | None => (w1, Ok tt) end.

(** [try: ... except KeyError: ...] *)
Definition catch_key (m : M unit) : M unit := fun w =>
  match m w with (w1, Err KeyError) => (w1, Ok tt) | r => r end.

(** * HandleProvider, _handle_provider.py 26-87 *)

Definition new_prov (h : option nat) : M nat := fun w =>
  (mkworld (w_open w) (w_user w) (w_objs w ++ [mkprov h (negb (truthy w h))]) (w_uses w)
           (w_time w) (w_fail w), Ok (length (w_objs w))).

Definition set_prov (o : nat) (p : prov) (w : world) : world :=
  mkworld (w_open w) (w_user w) (upd o p (w_objs w)) (w_uses w) (w_time w) (w_fail w).

(** The property [handle]. *)
Definition get_handle (o : nat) : M nat := fun w =>
  match nth_error (w_objs w) o with
  | None => (w, Err AttributeError)
  | Some p =>
      match truthy w (p_handle p), p_handle p with
      | true, Some h => (w, Ok h)
      | _, _ =>
          if negb (p_manager p) then (w, Err RuntimeError)
          else match h5open false w with
               | (w1, Err e) => (w1, Err e)
               | (w1, Ok h) => (set_prov o (mkprov (Some h) true) w1, Ok h)
               end
      end
  end.

(** [_close_handle_if_manager] *)
Definition close_if_manager (o : nat) : M unit := fun w =>
  match nth_error (w_objs w) o with
  | None => (w, Err AttributeError)
  | Some p => if p_manager p
              then match p_handle p with None => (w, Err AttributeError) | Some h => h5close h w end
              else (w, Ok tt)
  end.

(** [with h5py.File(filename, "r") as handle: body] *)
Definition with_temp {A} (body : nat -> M A) : M A := fun w =>
  match h5open false w with
  | (w1, Err e) => (w1, Err e)
  | (w1, Ok h) => let '(w2, r) := body h w1 in (fst (h5close h w2), r)
  end.

(** [with self.open_file() as handle: body] *)
Definition with_open_file {A} (o : nat) (body : nat -> M A) : M A := fun w =>
  match nth_error (w_objs w) o with
  | None => (w, Err AttributeError)
  | Some p => match truthy w (p_handle p), p_handle p with
              | true, Some h => body h w
              | _, _ => with_temp body w
              end
  end.

(** What the user passes: a path or a handle.  The [filename] of a closed handle
    raises [ValueError]. *)
Inductive src := APath | AHandle (h : nat).

(** [with open_path_or_handle(obj) as handle: body], _file_utils.py 64-102. *)
Definition with_path_or_handle {A} (s : src) (body : nat -> M A) : M A :=
  match s with
  | APath => let! o := new_prov None in with_open_file o body
  | AHandle h => fun w => if is_open w h then (let! o := new_prov (Some h) in with_open_file o body) w
                          else (w, Err ValueError)
  end.

(** * Constructors *)

(** [self.handle[...]] *)
Definition use (o : nat) : M unit := let! h := get_handle o in access h.
Definition use_key (catch : bool) (o : nat) : M unit := if catch then catch_key (use o) else use o.
Fixpoint uses (l : list bool) (o : nat) : M unit :=
  match l with [] => ret tt | c :: t => let! _ := use_key c o in uses t o end.
Fixpoint repeatM (l : list (M unit)) : M unit :=
  match l with [] => ret tt | m :: t => let! _ := m in repeatM t end.

(** What a constructor reads: a list of accesses, each in a [try ... except KeyError]
    or not. *)
Record plan := mkplan {
  pl_meta : list bool;             (* header, subgrid scheme etc. *)
  pl_groups : list (list bool);    (* one list for every group present *)
  pl_columns : list nat;           (* named columns of every group *)
  pl_check : res unit;             (* the checks of SWIFTMask before reading *)
  pl_cells : list bool             (* the cell metadata *)
}.

(** [SWIFTUnits.__init__], objects.py 786-792. *)
Definition c_units (h : option nat) : M nat :=
  let! o := new_prov h in
  let! _ := uses [false] o in
  let! _ := close_if_manager o in ret o.

(** [SWIFTGroupMetadata.__init__], objects.py 617-638. *)
Definition c_group (reads : list bool) (h : option nat) : M nat :=
  let! o := new_prov h in
  let! _ := uses reads o in
  let! _ := close_if_manager o in ret o.

Definition drop {A} (m : M A) : M unit := let! _ := m in ret tt.

(** [load_groups], objects.py 128-139. *)
Definition load_groups (groups : list (list bool)) (o : nat) : M unit :=
  repeatM (map (fun reads => let! h := get_handle o in drop (c_group reads (Some h))) groups).

(** [SWIFTSnapshotMetadata.__init__] and its siblings, objects.py 91-105, 891-909,
    1500-1519, 1581-1601. *)
Definition c_metadata (pl : plan) (units : bool) (h : option nat) : M nat :=
  let! o := new_prov h in
  let! _ := (if units then ret tt else let! hh := get_handle o in drop (c_units (Some hh))) in
  let! _ := uses (pl_meta pl) o in
  let! _ := load_groups (pl_groups pl) o in
  let! _ := close_if_manager o in ret o.

(** [_metadata_discriminator] with a handle, objects.py 827-868. *)
Definition discriminator (pl : plan) (h : nat) : M nat :=
  let! _ := access h in c_metadata pl true (Some h).

(** [SWIFTMask.__init__], masks.py 95-141. *)
Definition c_mask (pl : plan) (h : option nat) : M nat :=
  let! o := new_prov h in
  let! _ := (fun w => (w, pl_check pl)) in
  let! _ := uses (pl_cells pl) o in
  let! _ := close_if_manager o in ret o.

(** [__SWIFTNamedColumnDataset.__init__], reader.py 464-488: [handle.filename] only. *)
Definition c_columns (h : nat) : M nat :=
  let! _ := access h in new_prov (Some h).

(** [__SWIFTGroupDataset.__init__], reader.py 345-366, with the named columns made in
    [_generate_datasets] first. *)
Fixpoint columns (n : nat) (h : nat) : M unit :=
  match n with 0 => ret tt | S k => let! _ := c_columns h in columns k h end.
Definition c_group_dataset (ncol : nat) (h : nat) : M nat :=
  let! _ := columns ncol h in
  let! _ := access h in
  let! o := new_prov (Some h) in
  let! _ := uses [false] o in
  let! _ := close_if_manager o in ret o.

(** [SWIFTDataset.__init__], reader.py 718-736, 747-811; with a mask, units and
    metadata are those of the mask. *)
Definition c_dataset (pl : plan) (masked : bool) (h : option nat) : M nat :=
  let! o := new_prov h in
  let! _ := (if masked then ret tt
             else let! hh := get_handle o in
                  let! _ := c_units (Some hh) in
                  let! hh := get_handle o in
                  drop (discriminator pl hh)) in
  let! _ := repeatM (map (fun ncol => let! hh := get_handle o in drop (c_group_dataset ncol hh))
                         (pl_columns pl)) in
  let! _ := close_if_manager o in ret o.

(** * Functions, __init__.py *)

(** [load], 156-176. *)
Definition load (pl : plan) (s : src) (masked : bool) : M nat :=
  with_path_or_handle s (fun h => let! _ := access h in c_dataset pl masked (Some h)).

(** [mask], 105-153. *)
Definition make_mask (pl : plan) (s : src) : M nat :=
  with_path_or_handle s (fun h =>
    let! _ := access h in
    let! _ := c_units (Some h) in
    let! _ := discriminator pl h in
    c_mask pl (Some h)).

(** [validate_file], 76-102: any result counts. *)
Definition validate (s : src) : M unit := with_path_or_handle s (fun h => access h).

(** Reading a field of an object, and [write_subset], subset_writer.py 431-436. *)
Definition read_field (n : nat) (o : nat) : M unit :=
  with_open_file o (fun h => repeatM (repeat (access h) n)).
Definition write_subset (n : nat) (o : nat) : M unit :=
  with_open_file o (fun h => with_temp (fun _ => repeatM (repeat (access h) n))).

(** * Histories *)

Inductive hop :=
| HOpen                                          (* the user opens a file *)
| HClose (h : nat)                               (* and closes it *)
| HLoad (pl : plan) (s : src) (masked : bool)
| HMask (pl : plan) (s : src)
| HValidate (s : src)
| HUnits (h : option nat)                        (* constructors called directly *)
| HMetadata (pl : plan) (units : bool) (h : option nat)
| HSwiftMask (pl : plan) (h : option nat)
| HDataset (pl : plan) (masked : bool) (h : option nat)
| HRead (n o : nat)                              (* a field, or constrain_mask *)
| HSubset (n o : nat)
| HHandle (n o : nat).                           (* get_metadata() etc. called again *)

Definition as_nat (m : M unit) : M nat := let! _ := m in ret 0.

(** The user closes only handles they opened. *)
Definition user_close (h : nat) : M unit := fun w =>
  if nth h (w_user w) false then h5close h w else (w, Err KeyError).

Definition hstep (op : hop) : M nat :=
  match op with
  | HOpen => h5open true
  | HClose h => as_nat (user_close h)
  | HLoad pl s masked => load pl s masked
  | HMask pl s => make_mask pl s
  | HValidate s => as_nat (validate s)
  | HUnits h => c_units h
  | HMetadata pl units h => c_metadata pl units h
  | HSwiftMask pl h => c_mask pl h
  | HDataset pl masked h => c_dataset pl masked h
  | HRead n o => as_nat (read_field n o)
  | HSubset n o => as_nat (write_subset n o)
  | HHandle n o => as_nat (uses (repeat false n) o)
  end.

Definition start (fail : nat -> option pyerr) : world := mkworld [] [] [] [] 0 fail.

Fixpoint hrun (w : world) (l : list hop) : world :=
  match l with [] => w | op :: t => hrun (fst (hstep op w)) t end.
