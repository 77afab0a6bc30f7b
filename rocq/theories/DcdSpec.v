(** What a DCD file is, and what its readers should return, written without reference to the
    readers. *)
From Coq Require Import List ZArith Bool Lia.
Import ListNotations.
Local Open Scope list_scope.
Local Notation length := List.length.

(** one time step: cell lengths, cosines of the cell angles, and the positions of the atoms; every
    number is the list of its bytes *)
Record frame := Frame {
  fa : list Z; fb : list Z; fc : list Z;
  cos_alpha : list Z; cos_beta : list Z; cos_gamma : list Z;
  atoms : list (list Z * list Z * list Z) }.

Definition x_of (a : list Z * list Z * list Z) := fst (fst a).
Definition y_of (a : list Z * list Z * list Z) := snd (fst a).
Definition z_of (a : list Z * list Z * list Z) := snd a.

(** a frame of [n] atoms: float64 cell, float32 positions *)
Definition proper (n : nat) (f : frame) : Prop :=
  length (fa f) = 8 /\ length (fb f) = 8 /\ length (fc f) = 8 /\
  length (cos_alpha f) = 8 /\ length (cos_beta f) = 8 /\ length (cos_gamma f) = 8 /\
  length (atoms f) = n /\
  List.Forall (fun a => length (x_of a) = 4 /\ length (y_of a) = 4 /\ length (z_of a) = 4) (atoms f).

(** the four bytes of an integer, lowest first *)
Definition le32 (v : Z) : list Z :=
  let u := (v mod 4294967296)%Z in
  [u mod 256; (u / 256) mod 256; (u / 65536) mod 256; u / 16777216]%Z.

(** a record: length, payload, length *)
Definition record (p : list Z) : list Z := le32 (Z.of_nat (length p)) ++ p ++ le32 (Z.of_nat (length p)).

(** one frame on disk: a record with the cell, one with all x, one with all y, one with all z *)
Definition cell_record (f : frame) : list Z :=
  record (fa f ++ cos_gamma f ++ fb f ++ cos_beta f ++ cos_alpha f ++ fc f).
Definition coord_record (get : list Z * list Z * list Z -> list Z) (f : frame) : list Z :=
  record (concat (map get (atoms f))).
Definition write_frame (f : frame) : list Z :=
  cell_record f ++ coord_record x_of f ++ coord_record y_of f ++ coord_record z_of f.

(** header: a record of 84 bytes that starts with 'CORD' and the number of time steps, a record of 164
    bytes with the titles, a record with the number of atoms *)
Definition write_header (cord : list Z) (nset : Z) (more title : list Z) (n : nat) : list Z :=
  record (cord ++ le32 nset ++ more) ++ record title ++ record (le32 (Z.of_nat n)).

Definition header_ok (cord : list Z) (nset : Z) (more title : list Z) (n : nat) : Prop :=
  length cord = 4 /\ length more = 76 /\ length title = 164 /\ (-2147483648 <= nset < 2147483648)%Z /\
  (4 * Z.of_nat n < 2147483648)%Z.

Definition write_dcd (h : list Z) (frames : list frame) : list Z := h ++ concat (map write_frame frames).

(** bytes of the header and of one frame *)
Definition header_bytes : nat := 276.
Definition frame_bytes (n : nat) : nat := 80 + 12 * n.

(** what a user wants back: lengths and angles of every cell, and for every step one row [x,y,z] per atom *)
Definition cells_of (angle : list Z -> list Z) (frames : list frame) : list (list (list Z)) :=
  map (fun f => [fa f; fb f; fc f; angle (cos_alpha f); angle (cos_beta f); angle (cos_gamma f)]) frames.
Definition coords_of (frames : list frame) : list (list (list (list Z))) :=
  map (fun f => map (fun a => [x_of a; y_of a; z_of a]) (atoms f)) frames.
