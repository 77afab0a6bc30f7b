(** C49: readers of DCD trajectory files. *)
From Coq Require Import List ZArith Bool String Reals Lia.
From Verif Require Import Dcd DcdSpec DcdProofs DcdFloat.
Import ListNotations.
Local Open Scope list_scope.
Local Open Scope nat_scope.
Local Notation length := List.length.

Definition the_angle (deg : list Z -> list Z) (convang : bool) : list Z -> list Z :=
  if convang then deg else (fun w => w).

(** C49: all three readers return the frames that were written. *)
Theorem C49_round_trip :
  forall deg cord nset more title n frames convang,
  header_ok cord nset more title n -> List.Forall (proper n) frames -> frames <> [] ->
  let file := write_dcd (write_header cord nset more title n) frames in
  let result := Some (cells_of (the_angle deg convang) frames, coords_of frames) in
  read_dcd_data deg file convang = result /\
  read_dcd_data_ref deg file convang = result /\
  (0 < n -> read_dcd_data_f deg file convang false = result).
Proof.
  intros deg cord nset more title n frames convang H P N. cbv zeta. split; [|split].
  - apply read_frames; assumption.
  - rewrite <- (app_nil_r (write_dcd _ _)). apply ref_frames; auto. unfold frame_bytes. cbn. lia.
  - intro Hn. apply fortran_walk; assumption.
Qed.

(** C49: with the number of steps taken from the header, the Fortran reader returns that many frames,
    and ends the program if the header says zero or more than there are. *)
Theorem C49_fortran_header :
  forall deg cord nset more title n frames convang,
  header_ok cord nset more title n -> List.Forall (proper n) frames -> 0 < n ->
  let file := write_dcd (write_header cord nset more title n) frames in
  let some := firstn (Z.to_nat nset) frames in
  ((0 < nset <= Z.of_nat (length frames))%Z ->
   read_dcd_data_f deg file convang true = Some (cells_of (the_angle deg convang) some, coords_of some)) /\
  (~ (0 < nset <= Z.of_nat (length frames))%Z -> read_dcd_data_f deg file convang true = None).
Proof.
  intros deg cord nset more title n frames convang H P N. cbv zeta.
  rewrite fortran_header by assumption.
  destruct (Z.ltb_spec 0 nset), (Z.leb_spec nset (Z.of_nat (length frames))); cbn [andb];
    split; intro K; try reflexivity; lia.
Qed.

(** C49: a file cut anywhere after the header: the reference reader returns the complete frames before
    the cut ([convang] asks for at least one). *)
Theorem C49_ref_truncated :
  forall deg cord nset more title n frames p convang,
  header_ok cord nset more title n -> List.Forall (proper n) frames ->
  let file := write_dcd (write_header cord nset more title n) frames in
  let whole := firstn ((p - header_bytes) / frame_bytes n) frames in
  header_bytes <= p <= length file -> whole <> [] \/ convang = false ->
  read_dcd_data_ref deg (firstn p file) convang
  = Some (cells_of (the_angle deg convang) whole, coords_of whole).
Proof. intros deg cord nset more title n frames p convang H P. cbv zeta. intros B C.
  apply ref_truncated; assumption. Qed.

(** C49: the fast reader raises on every cut except those at the end of a frame, where it returns the
    frames before the cut. *)
Theorem C49_read_truncated :
  forall deg cord nset more title n frames p convang,
  header_ok cord nset more title n -> List.Forall (proper n) frames ->
  let file := write_dcd (write_header cord nset more title n) frames in
  p <= length file ->
  (forall k, 0 < k -> p = header_bytes + k * frame_bytes n ->
     read_dcd_data deg (firstn p file) convang
     = Some (cells_of (the_angle deg convang) (firstn k frames), coords_of (firstn k frames))) /\
  ((forall k, 0 < k -> p <> header_bytes + k * frame_bytes n) ->
     read_dcd_data deg (firstn p file) convang = None).
Proof.
  intros deg cord nset more title n frames p convang H P. cbv zeta. intro B.
  rewrite read_truncated by assumption.
  assert (F : frame_bytes n <> 0) by (unfold frame_bytes; lia).
  split.
  - intros k K ->. destruct (Nat.ltb_spec header_bytes (header_bytes + k * frame_bytes n)) as [_|h];
      [|unfold frame_bytes in *; nia].
    replace (header_bytes + k * frame_bytes n - header_bytes) with (k * frame_bytes n) by lia.
    rewrite Nat.mod_mul, Nat.div_mul by exact F. reflexivity.
  - intro K. destruct (Nat.ltb_spec header_bytes p) as [h|h]; cbn [andb]; [|reflexivity].
    destruct (Nat.eqb_spec ((p - header_bytes) mod frame_bytes n) 0) as [E|E]; [|reflexivity].
    exfalso. pose proof (Nat.div_mod (p - header_bytes) (frame_bytes n) F) as D.
    apply (K ((p - header_bytes) / frame_bytes n)); nia.
Qed.

(** C49: the Fortran reader, on a file that ends between the records of a frame, ends the program
    instead of returning the complete frames. *)
Theorem C49_fortran_partial_frame :
  forall deg cord nset more title n frames f j convang,
  header_ok cord nset more title n -> List.Forall (proper n) frames -> proper n f -> 0 < n ->
  1 <= j <= 3 ->
  read_dcd_data_f deg
    (write_dcd (write_header cord nset more title n) frames ++
     List.concat (firstn j [cell_record f; coord_record x_of f; coord_record y_of f; coord_record z_of f]))
    convang false = None.
Proof. intros. apply fortran_partial; assumption. Qed.

(** C49: for every file whatsoever, if the fast reader returns something then the reference reader
    returns the same; and it returns whenever the reference reader does and the bytes behind the header
    are a positive whole number of frames. *)
Theorem C49_readers_agree :
  forall deg file convang r,
  read_dcd_data deg file convang = Some r <->
  (read_dcd_data_ref deg file convang = Some r /\
   exists natoms rest, read_header file = Some (natoms, rest) /\
     0 < length rest /\ (length rest) mod frame_bytes (Z.to_nat natoms) = 0).
Proof.
  intros deg file convang r. rewrite read_spec.
  destruct (read_header file) as [[natoms rest]|] eqn:E.
  - destruct (natoms <? 0)%Z eqn:Neg.
    + split; [discriminate|]. intros (R & _). unfold read_dcd_data_ref in R.
      rewrite E, Neg in R. exact R.
    + destruct (Nat.eqb_spec (length rest) 0) as [L|L].
      * split; [discriminate|]. intros (_ & a & b & [= <- <-] & L' & _). lia.
      * destruct (Nat.eqb_spec (length rest mod frame_bytes (Z.to_nat natoms)) 0) as [M|M].
        -- split; [|tauto]. intro R. split; [exact R|]. exists natoms, rest. repeat split; auto; lia.
        -- split; [discriminate|]. intros (_ & a & b & [= <- <-] & _ & M'). congruence.
  - split; [discriminate|]. intros (_ & a & b & X & _). discriminate.
Qed.

(** C49: a file with a header and no frame: the reference reader returns empty arrays, the fast reader
    and the Fortran reader fail. *)
Theorem C49_no_frames :
  forall deg cord nset more title n,
  header_ok cord nset more title n ->
  let file := write_dcd (write_header cord nset more title n) [] in
  read_dcd_data_ref deg file false = Some ([], []) /\
  read_dcd_data deg file false = None /\
  (0 < n -> read_dcd_data_f deg file false false = None).
Proof.
  intros deg cord nset more title n H. cbv zeta. split; [|split].
  - rewrite <- (app_nil_r (write_dcd _ _)).
    apply (ref_frames deg cord nset more title n [] [] false); auto. unfold frame_bytes. cbn. lia.
  - rewrite read_spec. unfold write_dcd. rewrite read_header_ok by exact H.
    destruct (Z.of_nat n <? 0)%Z; reflexivity.
  - intro N. unfold read_dcd_data_f, get_dcd_file_info, write_dcd. cbn [map List.concat].
    rewrite header_f_ok by exact H. reflexivity.
Qed.

(** C49: an incomplete header makes both numpy readers raise. *)
Theorem C49_short_header :
  forall deg file convang, length file < header_bytes ->
  read_dcd_data deg file convang = None /\ read_dcd_data_ref deg file convang = None.
Proof.
  intros deg file convang H. unfold read_dcd_data, read_dcd_data_ref.
  rewrite read_header_short by exact H. split; reflexivity.
Qed.

(** C49: the test of [read_dcd_data] for a whole number of frames is made on a quotient of binary64
    numbers; for files below 2^53 bytes it is exact, and so is the number of frames. *)
Theorem C49_frame_count :
  forall fd_rest per_step,
  (0 < per_step < 2 ^ 53)%Z -> (0 <= fd_rest < 2 ^ 53)%Z ->
  ((exists m, float_nstep fd_rest per_step = IZR m) <-> (fd_rest mod per_step = 0)%Z) /\
  ((fd_rest mod per_step = 0)%Z -> float_nstep fd_rest per_step = IZR (fd_rest / per_step)).
Proof. exact float_nstep_exact. Qed.

(** ** A concrete file: one atom, two frames *)

Definition w8 (b : Z) : list Z := [b; b; b; b; b; b; b; b]%Z.
Definition w4 (b : Z) : list Z := [b; b; b; b]%Z.
Definition frame1 : frame := Frame (w8 1) (w8 2) (w8 3) (w8 4) (w8 5) (w8 6) [(w4 7, w4 8, w4 9)].
Definition frame2 : frame := Frame (w8 11) (w8 12) (w8 13) (w8 14) (w8 15) (w8 16) [(w4 17, w4 18, w4 19)].
Definition head1 : list Z := write_header [67; 79; 82; 68]%Z 2 (repeat 0%Z 76) (repeat 32%Z 164) 1.

Example C49_header_ok : header_ok [67; 79; 82; 68]%Z 2 (repeat 0%Z 76) (repeat 32%Z 164) 1.
Proof. unfold header_ok. repeat split; try reflexivity; lia. Qed.

Example C49_proper : List.Forall (proper 1) [frame1; frame2].
Proof. repeat constructor. Qed.

Example C49_case :
  read_dcd_data (fun w => w) (write_dcd head1 [frame1; frame2]) true
  = Some ([[w8 1; w8 2; w8 3; w8 4; w8 5; w8 6]; [w8 11; w8 12; w8 13; w8 14; w8 15; w8 16]],
          [[[w4 7; w4 8; w4 9]]; [[w4 17; w4 18; w4 19]]]) /\
  read_dcd_data (fun w => w) (firstn 400 (write_dcd head1 [frame1; frame2])) true = None /\
  read_dcd_data_ref (fun w => w) (firstn 400 (write_dcd head1 [frame1; frame2])) true
  = Some ([[w8 1; w8 2; w8 3; w8 4; w8 5; w8 6]], [[[w4 7; w4 8; w4 9]]]) /\
  read_dcd_data_f (fun w => w) (write_dcd head1 [frame1; frame2]) true true
  = read_dcd_data (fun w => w) (write_dcd head1 [frame1; frame2]) true.
Proof. vm_compute. repeat split. Qed.

Example C49_count_case : float_nstep 184 92 = IZR 2.
Proof.
  destruct (C49_frame_count 184 92 ltac:(lia) ltac:(lia)) as (_ & H).
  exact (H eq_refl).
Qed.

Print Assumptions C49_round_trip.
Print Assumptions C49_fortran_header.
Print Assumptions C49_ref_truncated.
Print Assumptions C49_read_truncated.
Print Assumptions C49_fortran_partial_frame.
Print Assumptions C49_readers_agree.
Print Assumptions C49_no_frames.
Print Assumptions C49_short_header.
Print Assumptions C49_frame_count.
