(** Model of the byte order of arrays that are read: accelerated.py [to_native_byteorder_inplace] and the
    readers of ranges that end with it, and of which arrays the getter of reader.py returns.

    A type is a number, a byte string or a structure (possibly nested).  Arrays as fields of structures are not modelled, nor
    are structures whose fields overlap.  Memory is a list of bytes for each entry of an array. *)
From Coq Require Import List ZArith Bool Ascii.
From Verif Require Import Base NamesModel RangesModel ReaderModel.
Import ListNotations.
Open Scope Z_scope.

Inductive order : Set := Little | Big.
Definition order_eqb (x y : order) : bool :=
  match x, y with Little, Little | Big, Big => true | _, _ => false end.

Definition byte := Z.

(** [Number o size parts]: [parts] numbers of [size] bytes, one for integers and floats, two for complex
    numbers, one for each character of a unicode string.  [Opaque]: byte strings.  Before each field of a
    structure and after the last one there may be unused bytes. *)
Inductive dtype : Set :=
| Number (o : order) (size parts : nat)
| Opaque (size : nat)
| Struct (l : fields)
with fields : Set :=
| FEnd (gap : nat)
| FCons (gap : nat) (n : name) (d : dtype) (l : fields).

Fixpoint size_of (d : dtype) : nat :=
  match d with
  | Number _ size parts => size * parts
  | Opaque size => size
  | Struct l => size_of_fields l
  end
with size_of_fields (l : fields) : nat :=
  match l with
  | FEnd gap => gap
  | FCons gap _ d l => gap + size_of d + size_of_fields l
  end.

(** [dtype.isnative]: numbers of one byte have no order. *)
Fixpoint isnative (native : order) (d : dtype) : bool :=
  match d with
  | Number o size _ => (size <=? 1)%nat || order_eqb o native
  | Opaque _ => true
  | Struct l => isnative_fields native l
  end
with isnative_fields (native : order) (l : fields) : bool :=
  match l with
  | FEnd _ => true
  | FCons _ _ d l => isnative native d && isnative_fields native l
  end.

(** [dtype.newbyteorder("native")]. *)
Fixpoint newbyteorder (native : order) (d : dtype) : dtype :=
  match d with
  | Number _ size parts => Number native size parts
  | Opaque size => Opaque size
  | Struct l => Struct (newbyteorder_fields native l)
  end
with newbyteorder_fields (native : order) (l : fields) : fields :=
  match l with
  | FEnd gap => FEnd gap
  | FCons gap n d l => FCons gap n (newbyteorder native d) (newbyteorder_fields native l)
  end.

(** [array.byteswap] on the bytes of one entry: every number is reversed, whatever its order; numpy goes
    through the fields of structures in the same way. *)
Fixpoint swap_parts (size parts : nat) (b : list byte) : list byte :=
  match parts with
  | O => b
  | S parts => rev (firstn size b) ++ swap_parts size parts (skipn size b)
  end.

Fixpoint byteswap (d : dtype) (b : list byte) : list byte :=
  match d with
  | Number _ size parts => swap_parts size parts b
  | Opaque _ => b
  | Struct l => byteswap_fields l b
  end
with byteswap_fields (l : fields) (b : list byte) : list byte :=
  match l with
  | FEnd _ => b
  | FCons gap _ d l =>
      let r := skipn gap b in
      firstn gap b ++ byteswap d (firstn (size_of d) r) ++ byteswap_fields l (skipn (size_of d) r)
  end.

(** [dtype.names] and [array[name]]: the type of a field and a change of the bytes of it. *)
Fixpoint names_of (l : fields) : list name :=
  match l with FEnd _ => [] | FCons _ n _ l => n :: names_of l end.

Fixpoint field_type (n : name) (l : fields) : option dtype :=
  match l with
  | FEnd _ => None
  | FCons _ m d l => if name_eqb m n then Some d else field_type n l
  end.

Fixpoint on_field (n : name) (f : list byte -> list byte) (l : fields) (b : list byte) : list byte :=
  match l with
  | FEnd _ => b
  | FCons gap m d l =>
      let r := skipn gap b in
      firstn gap b ++
      (if name_eqb m n then f (firstn (size_of d) r) ++ skipn (size_of d) r
       else firstn (size_of d) r ++ on_field n f l (skipn (size_of d) r))
  end.

(** An array: its type and the bytes of its entries, row by row. *)
Record array := mk_array { a_type : dtype; a_rows : list (list (list byte)) }.

Definition on_entries (f : list byte -> list byte) (x : list (list (list byte))) : list (list (list byte)) :=
  map (map f) x.

(** [arr[name].byteswap(inplace=True)], accelerated.py 45-47. *)
Definition swap_field (native : order) (l : fields) (rows : list (list (list byte))) (n : name)
  : list (list (list byte)) :=
  match field_type n l with
  | Some d => if isnative native d then rows else on_entries (on_field n (byteswap d) l) rows
  | None => rows
  end.

(** [to_native_byteorder_inplace], accelerated.py 32-48. *)
Definition to_native (native : order) (x : array) : array :=
  if isnative native (a_type x) then x
  else mk_array (newbyteorder native (a_type x))
         match a_type x with
         | Struct l => fold_left (swap_field native l) (names_of l) (a_rows x)
         | d => on_entries (byteswap d) (a_rows x)
         end.

(** * Reading *)

(** [output] after reading, with nothing left uninitialised. *)
Fixpoint initialised {A} (l : list (option A)) : res (list A) :=
  match l with
  | [] => Ok []
  | Some x :: l => do r <- initialised l; Ok (x :: r)
  | None :: _ => Err UndefinedRead
  end.

(** Which datasets [read_ranges_from_file] reads chunk by chunk, accelerated.py 527-534. *)
Definition by_chunks (lay : layout) (ranges : list range) : bool :=
  match lay with
  | Chunked _ => (0 <? zlen ranges) && (sumZ (map (fun r => snd r - fst r) ranges) <? 500000 * zlen ranges)
  | _ => false
  end.

(** reader.py 134-184 for a dataset of the type [d] whose entries are bytes.  Without a mask the array is
    what h5py returns, in the order of the file.  With a mask, [to_native_byteorder_inplace] is the last
    thing the readers do (accelerated.py 168, 424, 479); before that, the data of chunks pass through a function
    compiled by numba (accelerated.py:421), which refuses types that are not native with a ValueError;
    [numba]: numba is installed. *)
Definition read_array (numba : bool) (native : order) (argsort : list Z -> list nat)
           (mask : option (list range * Z)) (column : option nat) (d : dtype) (f : field (list byte)) : res array :=
  do rows <- read_field argsort mask column f;
  match mask with
  | None => do rows <- initialised rows; Ok (mk_array d rows)
  | Some (ranges, _) =>
      if numba && by_chunks (fd_layout f) ranges && negb (isnative native d) then Err ValueError
      else do rows <- initialised rows; Ok (to_native native (mk_array d rows))
  end.
