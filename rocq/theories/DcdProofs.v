(** Proofs about the DCD readers. *)
From Coq Require Import List ZArith Bool String Lia.
From Verif Require Import Dcd DcdSpec.
Import ListNotations.
Local Open Scope list_scope.
Local Open Scope nat_scope.
Local Notation length := List.length.
Local Notation concat := List.concat.

(** ** Bytes *)

Lemma le32_length v : length (le32 v) = 4.
Proof. reflexivity. Qed.

Lemma i4_le32 v : (-2147483648 <= v < 2147483648)%Z -> i4 (le32 v) = v.
Proof.
  intro H. unfold i4, le32. cbn [nth].
  set (u := (v mod 4294967296)%Z).
  replace (u mod 256 + 256 * ((u / 256) mod 256 + 256 * ((u / 65536) mod 256 + 256 * (u / 16777216))))%Z
    with u by (subst u; Z.to_euclidean_division_equations; lia).
  subst u. destruct (Z.ltb_spec (v mod 4294967296) 2147483648); Z.to_euclidean_division_equations; lia.
Qed.

Lemma skipn_skipn' {A} a b (l : list A) : skipn a (skipn b l) = skipn (b + a) l.
Proof.
  revert l; induction b as [|b IH]; intro l; [reflexivity|].
  destruct l as [|x l]; cbn [skipn Nat.add]; [apply skipn_nil | apply IH].
Qed.

Lemma skipn_len {A} k (a l : list A) : length a = k -> skipn k (a ++ l) = l.
Proof. intros <-. rewrite skipn_app, skipn_all, Nat.sub_diag. reflexivity. Qed.

Lemma skipn_plus {A} k m (a l : list A) : length a = k -> skipn (k + m) (a ++ l) = skipn m l.
Proof. intro H. rewrite <- skipn_skipn', skipn_len by exact H. reflexivity. Qed.

Lemma firstn_len {A} k (a l : list A) : length a = k -> firstn k (a ++ l) = a.
Proof. intros <-. rewrite firstn_app, Nat.sub_diag, firstn_O, app_nil_r. apply firstn_all. Qed.

Lemma chunks_length k n l : length (chunks k n l) = n.
Proof. revert l; induction n; intro l; cbn [chunks length]; auto. Qed.

Lemma chunks_concat k ws rest :
  List.Forall (fun w => length w = k) ws -> chunks k (length ws) (concat ws ++ rest) = ws.
Proof.
  induction 1 as [|w ws Hw _ IH]; [reflexivity|].
  cbn [length chunks List.concat]. rewrite <- app_assoc, firstn_len, skipn_len by assumption.
  f_equal. apply IH.
Qed.

Lemma chunks_firstn k n m l : k * n <= m -> chunks k n (firstn m l) = chunks k n l.
Proof.
  revert m l; induction n as [|n IH]; intros m l H; [reflexivity|].
  cbn [chunks]. rewrite firstn_firstn, Nat.min_l by nia. f_equal.
  rewrite skipn_firstn_comm. apply IH. nia.
Qed.

(** ** Structured dtypes *)

Lemma field_here dt nm sz c l : field ((nm, sz, c) :: dt) nm l = chunks sz c l.
Proof. cbn [field]. rewrite String.eqb_refl. reflexivity. Qed.

Lemma field_next dt nm sz c name l :
  String.eqb nm name = false -> field ((nm, sz, c) :: dt) name l = field dt name (skipn (sz * c) l).
Proof. intro H. cbn [field]. rewrite H. reflexivity. Qed.

Ltac go_field :=
  unfold ref_types, data_types, header_types;
  repeat (rewrite field_next by reflexivity); rewrite field_here; rewrite ?skipn_skipn'.

Lemma ref_cell n l : field (ref_types n) "cryst_const_dcd" l = chunks 8 6 (skipn 4 l).
Proof. go_field. reflexivity. Qed.
Lemma ref_x n l : field (ref_types n) "x" l = chunks 4 n (skipn 60 l).
Proof. go_field. reflexivity. Qed.
Lemma ref_y n l : field (ref_types n) "y" l = chunks 4 n (skipn (68 + 4*n) l).
Proof. go_field. do 2 f_equal. lia. Qed.
Lemma ref_z n l : field (ref_types n) "z" l = chunks 4 n (skipn (76 + 8*n) l).
Proof. go_field. do 2 f_equal. lia. Qed.

Lemma data_cell n l : field (data_types n) "x1" l = chunks 8 6 (skipn 4 l).
Proof. go_field. reflexivity. Qed.
Lemma data_x n l : field (data_types n) "x3" l = chunks 4 n (skipn 60 l).
Proof. go_field. reflexivity. Qed.
Lemma data_y n l : field (data_types n) "x5" l = chunks 4 n (skipn (68 + 4*n) l).
Proof. go_field. do 2 f_equal. lia. Qed.
Lemma data_z n l : field (data_types n) "x7" l = chunks 4 n (skipn (76 + 8*n) l).
Proof. go_field. do 2 f_equal. lia. Qed.

Lemma header_natoms l : field header_types "natoms" l = chunks 4 1 (skipn 268 l).
Proof. go_field. reflexivity. Qed.

Lemma ref_size n : itemsize (ref_types n) = frame_bytes n.
Proof. unfold ref_types, frame_bytes. cbn [itemsize]. lia. Qed.
Lemma data_size n : itemsize (data_types n) = frame_bytes n.
Proof. unfold data_types, frame_bytes. cbn [itemsize]. lia. Qed.
Lemma header_size : itemsize header_types = header_bytes.
Proof. reflexivity. Qed.

Lemma read_header_short l : length l < header_bytes -> read_header l = None.
Proof.
  intro H. unfold read_header. rewrite header_size.
  destruct (Nat.ltb_spec (length l) header_bytes); [reflexivity | lia].
Qed.

(** ** Frames on disk *)

Lemma record_length p : length (record p) = 8 + length p.
Proof. unfold record. rewrite !app_length, !le32_length. lia. Qed.

Lemma concat_words {A} (get : A -> list Z) k l :
  List.Forall (fun a => length (get a) = k) l -> length (concat (map get l)) = k * length l.
Proof.
  induction 1 as [|a l H _ IH]; cbn [map List.concat length]; [lia|].
  rewrite app_length, H, IH. lia.
Qed.

Lemma proper_get n f : proper n f ->
  List.Forall (fun a => length (x_of a) = 4) (atoms f) /\
  List.Forall (fun a => length (y_of a) = 4) (atoms f) /\
  List.Forall (fun a => length (z_of a) = 4) (atoms f).
Proof.
  intros (_ & _ & _ & _ & _ & _ & _ & H).
  repeat split; eapply Forall_impl; try exact H; cbn; tauto.
Qed.

Definition cell_payload (f : frame) : list Z :=
  fa f ++ cos_gamma f ++ fb f ++ cos_beta f ++ cos_alpha f ++ fc f.

Lemma cell_payload_length n f : proper n f -> length (cell_payload f) = 48.
Proof.
  intros (H1 & H2 & H3 & H4 & H5 & H6 & _). unfold cell_payload.
  rewrite !app_length. lia.
Qed.

Lemma cell_chunks n f rest : proper n f ->
  chunks 8 6 (cell_payload f ++ rest) = [fa f; cos_gamma f; fb f; cos_beta f; cos_alpha f; fc f].
Proof.
  intros (H1 & H2 & H3 & H4 & H5 & H6 & _).
  replace (cell_payload f) with (concat [fa f; cos_gamma f; fb f; cos_beta f; cos_alpha f; fc f]).
  - apply (chunks_concat 8 [fa f; cos_gamma f; fb f; cos_beta f; cos_alpha f; fc f]).
    repeat constructor; assumption.
  - unfold cell_payload. cbn [List.concat]. rewrite app_nil_r. reflexivity.
Qed.

Definition payload (get : list Z * list Z * list Z -> list Z) (f : frame) : list Z :=
  concat (map get (atoms f)).

Lemma payload_chunks n f get rest : proper n f ->
  List.Forall (fun a => length (get a) = 4) (atoms f) ->
  chunks 4 n (payload get f ++ rest) = map get (atoms f).
Proof.
  intros P H.
  replace n with (length (map get (atoms f))).
  - apply chunks_concat. apply Forall_map. exact H.
  - rewrite map_length. apply P.
Qed.

Lemma payload_length n f get : proper n f ->
  List.Forall (fun a => length (get a) = 4) (atoms f) -> length (payload get f) = 4 * n.
Proof.
  intros P H. unfold payload. rewrite (concat_words get 4) by exact H.
  destruct P as (_ & _ & _ & _ & _ & _ & -> & _). reflexivity.
Qed.

Lemma frame_length n f : proper n f -> length (write_frame f) = frame_bytes n.
Proof.
  intro P. destruct (proper_get n f P) as (X & Y & Z).
  unfold write_frame, cell_record, coord_record.
  rewrite !app_length, !record_length.
  change (fa f ++ _) with (cell_payload f).
  rewrite (cell_payload_length n f P).
  change (concat (map x_of (atoms f))) with (payload x_of f).
  change (concat (map y_of (atoms f))) with (payload y_of f).
  change (concat (map z_of (atoms f))) with (payload z_of f).
  rewrite !(payload_length n f) by assumption.
  unfold frame_bytes. lia.
Qed.

(** the parts of a frame at their places *)
Lemma frame_cell n f rest : proper n f ->
  chunks 8 6 (skipn 4 (write_frame f ++ rest)) = [fa f; cos_gamma f; fb f; cos_beta f; cos_alpha f; fc f].
Proof.
  intro P. unfold write_frame, cell_record, record at 1.
  change (fa f ++ _) with (cell_payload f).
  rewrite <- !app_assoc, skipn_len by reflexivity.
  apply (cell_chunks n). exact P.
Qed.

Lemma frame_x n f rest : proper n f ->
  chunks 4 n (skipn 60 (write_frame f ++ rest)) = map x_of (atoms f).
Proof.
  intro P. destruct (proper_get n f P) as (X & Y & Z).
  unfold write_frame, coord_record, record at 1.
  change (concat (map x_of (atoms f))) with (payload x_of f).
  replace 60 with (56 + 4) by reflexivity. rewrite <- skipn_skipn'.
  rewrite <- !app_assoc, (skipn_len 56), (skipn_len 4).
  - apply payload_chunks; assumption.
  - reflexivity.
  - unfold cell_record. rewrite record_length.
    change (fa f ++ _) with (cell_payload f). rewrite (cell_payload_length n f P). reflexivity.
Qed.

Lemma frame_y n f rest : proper n f ->
  chunks 4 n (skipn (68 + 4*n) (write_frame f ++ rest)) = map y_of (atoms f).
Proof.
  intro P. destruct (proper_get n f P) as (X & Y & Z).
  unfold write_frame.
  replace (68 + 4*n) with (56 + ((8 + 4*n) + 4)) by lia.
  rewrite <- !app_assoc, (skipn_plus 56), (skipn_plus (8 + 4*n)).
  - unfold coord_record, record at 1. change (concat (map y_of (atoms f))) with (payload y_of f).
    rewrite <- !app_assoc, (skipn_len 4) by reflexivity.
    apply payload_chunks; assumption.
  - unfold coord_record. rewrite record_length.
    change (concat (map x_of (atoms f))) with (payload x_of f).
    rewrite (payload_length n) by assumption. reflexivity.
  - unfold cell_record. rewrite record_length.
    change (fa f ++ _) with (cell_payload f). rewrite (cell_payload_length n f P). reflexivity.
Qed.

Lemma frame_z n f rest : proper n f ->
  chunks 4 n (skipn (76 + 8*n) (write_frame f ++ rest)) = map z_of (atoms f).
Proof.
  intro P. destruct (proper_get n f P) as (X & Y & Z).
  unfold write_frame.
  replace (76 + 8*n) with (56 + ((8 + 4*n) + ((8 + 4*n) + 4))) by lia.
  rewrite <- !app_assoc, (skipn_plus 56), (skipn_plus (8 + 4*n)), (skipn_plus (8 + 4*n)).
  - unfold coord_record, record at 1. change (concat (map z_of (atoms f))) with (payload z_of f).
    rewrite <- !app_assoc, (skipn_len 4) by reflexivity.
    apply payload_chunks; assumption.
  - unfold coord_record. rewrite record_length.
    change (concat (map y_of (atoms f))) with (payload y_of f).
    rewrite (payload_length n) by assumption. reflexivity.
  - unfold coord_record. rewrite record_length.
    change (concat (map x_of (atoms f))) with (payload x_of f).
    rewrite (payload_length n) by assumption. reflexivity.
  - unfold cell_record. rewrite record_length.
    change (fa f ++ _) with (cell_payload f). rewrite (cell_payload_length n f P). reflexivity.
Qed.

Lemma coord_rows_atoms n f : proper n f ->
  coord_rows n (map x_of (atoms f)) (map y_of (atoms f)) (map z_of (atoms f))
  = map (fun a => [x_of a; y_of a; z_of a]) (atoms f).
Proof.
  intros (_ & _ & _ & _ & _ & _ & <- & _). unfold coord_rows.
  generalize (atoms f) as l. clear f. intro l.
  assert (G : forall l k l0, length l0 = k ->
     map (fun i => [nth i (map x_of (l0 ++ l)) []; nth i (map y_of (l0 ++ l)) []; nth i (map z_of (l0 ++ l)) []])
       (seq k (length l)) = map (fun a => [x_of a; y_of a; z_of a]) l).
  { clear l. induction l as [|a l IH]; intros k l0 E; [reflexivity|].
    cbn [length seq map]. f_equal.
    - rewrite !map_app. cbn [map].
      rewrite !app_nth2, !map_length by (rewrite map_length; lia).
      replace (k - length l0) with 0 by lia. reflexivity.
    - rewrite <- (IH (S k) (l0 ++ [a])) by (rewrite app_length; cbn; lia).
      rewrite <- app_assoc. reflexivity. }
  exact (G l 0 [] eq_refl).
Qed.

(** ** The header *)

Lemma header_length cord nset more title n :
  header_ok cord nset more title n -> length (write_header cord nset more title n) = header_bytes.
Proof.
  intros (H1 & H2 & H3 & _). unfold write_header.
  rewrite !app_length, !record_length, !app_length, !le32_length, H1, H2, H3. reflexivity.
Qed.

Lemma read_header_ok cord nset more title n rest :
  header_ok cord nset more title n ->
  read_header (write_header cord nset more title n ++ rest) = Some (Z.of_nat n, rest).
Proof.
  intros H. pose proof (header_length _ _ _ _ _ H) as L.
  unfold read_header. rewrite header_size.
  destruct (Nat.ltb_spec (length (write_header cord nset more title n ++ rest)) header_bytes) as [h|_];
    [rewrite app_length in h; lia|].
  rewrite (skipn_len header_bytes) by exact L.
  rewrite header_natoms. do 2 f_equal.
  unfold write_header, record at 3. rewrite !(app_assoc _ _ rest) || idtac.
  destruct H as (H1 & H2 & H3 & H4 & H5).
  assert (E : skipn 268 ((record (cord ++ le32 nset ++ more) ++ record title ++
      le32 (Z.of_nat (length (le32 (Z.of_nat n)))) ++ le32 (Z.of_nat n)
      ++ le32 (Z.of_nat (length (le32 (Z.of_nat n))))) ++ rest) =
    le32 (Z.of_nat n) ++ le32 (Z.of_nat (length (le32 (Z.of_nat n)))) ++ rest).
  { replace 268 with (92 + (172 + 4)) by reflexivity.
    rewrite <- !app_assoc.
    rewrite (skipn_plus 92), (skipn_plus 172), (skipn_len 4); [reflexivity..| |].
    - rewrite record_length, H3. reflexivity.
    - rewrite record_length, !app_length, le32_length, H1, H2. reflexivity. }
  cbn [chunks nth].
  rewrite <- !app_assoc in E |- *. rewrite E.
  rewrite firstn_len by reflexivity. apply i4_le32. lia.
Qed.

(** ** The reference reader *)

Section Readers.
Variable deg : word -> word.

Definition angle_of (convang : bool) : word -> word := if convang then deg else (fun w => w).

Lemma ref_loop_frames n frames tail fuel :
  List.Forall (proper n) frames -> length tail < frame_bytes n ->
  length (concat (map write_frame frames) ++ tail) < fuel ->
  ref_loop fuel n (concat (map write_frame frames) ++ tail)
  = Some (cells_of (fun w => w) frames, coords_of frames).
Proof.
  intros P T. revert fuel. induction P as [|f frames Pf P IH]; intros fuel F.
  - destruct fuel as [|fuel]; [lia|]. cbn [ref_loop map List.concat app].
    rewrite ref_size. destruct (Nat.ltb_spec (length tail) (frame_bytes n)); [reflexivity | lia].
  - destruct fuel as [|fuel]; [lia|].
    cbn [map List.concat] in F |- *. rewrite <- app_assoc in F |- *.
    set (rest := concat (map write_frame frames) ++ tail) in *.
    pose proof (frame_length n f Pf) as L.
    rewrite app_length, L in F.
    cbn [ref_loop]. rewrite ref_size.
    destruct (Nat.ltb_spec (length (write_frame f ++ rest)) (frame_bytes n)) as [h|_];
      [rewrite app_length in h; lia|].
    rewrite (skipn_len (frame_bytes n)) by exact L.
    rewrite IH by (unfold frame_bytes in F; lia).
    rewrite ref_cell, ref_x, ref_y, ref_z.
    rewrite (frame_cell n), (frame_x n), (frame_y n), (frame_z n) by exact Pf.
    rewrite coord_rows_atoms by exact Pf. reflexivity.
Qed.

Lemma convert_cells convang frames :
  map (convert_row deg convang) (cells_of (fun w => w) frames) = cells_of (angle_of convang) frames.
Proof.
  unfold cells_of. rewrite map_map. apply map_ext. intro f.
  destruct convang; reflexivity.
Qed.

(** a file of whole frames followed by an incomplete one *)
Lemma ref_frames cord nset more title n frames tail convang :
  header_ok cord nset more title n -> List.Forall (proper n) frames ->
  length tail < frame_bytes n -> frames <> [] \/ convang = false ->
  read_dcd_data_ref deg (write_dcd (write_header cord nset more title n) frames ++ tail) convang
  = Some (cells_of (angle_of convang) frames, coords_of frames).
Proof.
  intros H P T C. unfold read_dcd_data_ref, write_dcd. rewrite <- app_assoc, read_header_ok by exact H.
  destruct (Z.ltb_spec (Z.of_nat n) 0) as [h|_]; [lia|].
  rewrite Nat2Z.id, ref_loop_frames by (assumption || lia).
  destruct frames as [|f frames].
  - destruct C as [C | ->]; [congruence | reflexivity].
  - rewrite <- convert_cells. reflexivity.
Qed.

Lemma ref_no_frames cord nset more title n tail :
  header_ok cord nset more title n -> length tail < frame_bytes n ->
  read_dcd_data_ref deg (write_header cord nset more title n ++ tail) true = None.
Proof.
  intros H T. unfold read_dcd_data_ref. rewrite read_header_ok by exact H.
  destruct (Z.ltb_spec (Z.of_nat n) 0) as [h|_]; [lia|].
  rewrite Nat2Z.id.
  rewrite (ref_loop_frames n [] tail) by (auto || cbn; lia). reflexivity.
Qed.

(** ** The fast reader agrees with the reference reader *)

Lemma ref_loop_chunks n k l fuel :
  length l = frame_bytes n * k -> k < fuel ->
  ref_loop fuel n l =
  Some (map (fun b => cell_row (field (data_types n) "x1" b)) (chunks (frame_bytes n) k l),
        map (fun b => coord_rows n (field (data_types n) "x3" b) (field (data_types n) "x5" b)
                        (field (data_types n) "x7" b)) (chunks (frame_bytes n) k l)).
Proof.
  revert l fuel. induction k as [|k IH]; intros l fuel L F.
  - destruct fuel as [|fuel]; [lia|]. cbn [ref_loop]. rewrite ref_size.
    destruct (Nat.ltb_spec (length l) (frame_bytes n)); [reflexivity | unfold frame_bytes in *; lia].
  - destruct fuel as [|fuel]; [lia|]. cbn [ref_loop]. rewrite ref_size.
    destruct (Nat.ltb_spec (length l) (frame_bytes n)) as [h|_]; [nia|].
    rewrite (IH (skipn (frame_bytes n) l)) by (rewrite ?skipn_length; lia).
    cbn [chunks map].
    rewrite ref_cell, ref_x, ref_y, ref_z.
    rewrite data_cell, data_x, data_y, data_z.
    rewrite !skipn_firstn_comm.
    rewrite !chunks_firstn by (unfold frame_bytes; lia).
    reflexivity.
Qed.

Lemma per_step_bytes n : 4 + 6*8 + 7*4 + 3*4*n = frame_bytes n.
Proof. unfold frame_bytes. lia. Qed.

(** exactly when the fast reader succeeds, and that it then agrees *)
Lemma read_spec l convang :
  read_dcd_data deg l convang =
  match read_header l with
  | None => None
  | Some (natoms, rest) =>
      if (natoms <? 0)%Z then None
      else if length rest =? 0 then None
      else if length rest mod frame_bytes (Z.to_nat natoms) =? 0 then read_dcd_data_ref deg l convang
      else None
  end.
Proof.
  unfold read_dcd_data, read_dcd_data_ref.
  destruct (read_header l) as [[natoms rest]|]; [|reflexivity].
  destruct (natoms <? 0)%Z; [reflexivity|].
  cbv zeta. rewrite per_step_bytes, data_size. set (n := Z.to_nat natoms).
  destruct (Nat.eqb_spec (length rest) 0) as [E0|E0].
  { rewrite E0, Nat.mod_0_l, Nat.div_0_l by (unfold frame_bytes; lia).
    rewrite Nat.mul_0_r. reflexivity. }
  destruct (Nat.eqb_spec (length rest mod frame_bytes n) 0) as [E|E]; cbn [negb]; [|reflexivity].
  assert (B : frame_bytes n <> 0) by (unfold frame_bytes; lia).
  pose proof (Nat.div_mod (length rest) (frame_bytes n) B) as D. rewrite E, Nat.add_0_r in D.
  set (k := length rest / frame_bytes n) in *.
  destruct (Nat.eqb_spec (frame_bytes n * k) 0) as [h|_]; [lia|].
  destruct (Nat.ltb_spec (length rest) (frame_bytes n * k)) as [h|_]; [lia|].
  rewrite (ref_loop_chunks n k rest) by (try exact D; unfold frame_bytes in *; nia).
  destruct k as [|k]; [nia|].
  cbn [chunks map]. do 2 f_equal. f_equal. rewrite map_map. reflexivity.
Qed.

Lemma read_frames cord nset more title n frames convang :
  header_ok cord nset more title n -> List.Forall (proper n) frames -> frames <> [] ->
  read_dcd_data deg (write_dcd (write_header cord nset more title n) frames) convang
  = Some (cells_of (angle_of convang) frames, coords_of frames).
Proof.
  intros H P N. rewrite read_spec.
  unfold write_dcd at 1. rewrite read_header_ok by exact H.
  destruct (Z.ltb_spec (Z.of_nat n) 0) as [h|_]; [lia|]. rewrite Nat2Z.id.
  assert (L : length (concat (map write_frame frames)) = frame_bytes n * length frames).
  { clear N H. induction P as [|f frames Pf P IH]; cbn [map List.concat length]; [lia|].
    rewrite app_length, IH, (frame_length n) by exact Pf. lia. }
  assert (B : frame_bytes n <> 0) by (unfold frame_bytes; lia).
  rewrite L.
  destruct (Nat.eqb_spec (frame_bytes n * length frames) 0) as [h|_].
  { destruct frames; [congruence | cbn [length] in h; nia]. }
  rewrite (Nat.mul_comm (frame_bytes n)), Nat.mod_mul, Nat.eqb_refl by exact B.
  rewrite <- (app_nil_r (write_dcd _ _)).
  apply ref_frames; auto. cbn. lia.
Qed.

(** ** Truncation *)

Lemma frames_length n frames : List.Forall (proper n) frames ->
  length (concat (map write_frame frames)) = frame_bytes n * length frames.
Proof.
  intro P. induction P as [|f frames Pf P IH]; cbn [map List.concat length]; [lia|].
  rewrite app_length, IH, (frame_length n) by exact Pf. lia.
Qed.

Lemma cut_frames n frames p : List.Forall (proper n) frames ->
  p <= frame_bytes n * length frames ->
  firstn p (concat (map write_frame frames)) =
  concat (map write_frame (firstn (p / frame_bytes n) frames)) ++
  firstn (p mod frame_bytes n) (skipn (p / frame_bytes n * frame_bytes n) (concat (map write_frame frames))).
Proof.
  intro P. assert (B : frame_bytes n <> 0) by (unfold frame_bytes; lia).
  pose proof (Nat.div_mod p (frame_bytes n) B) as D.
  pose proof (Nat.mod_upper_bound p (frame_bytes n) B) as M.
  set (k := p / frame_bytes n) in *. set (r := p mod frame_bytes n) in *. clearbody k r.
  subst p. revert k. induction P as [|f frames Pf P IH]; intros k H.
  - cbn [length] in H. assert (k = 0) by nia. subst k. assert (r = 0) by lia. subst r.
    cbn. apply firstn_nil.
  - destruct k as [|k].
    + rewrite Nat.mul_0_r. cbn [firstn map List.concat app Nat.add Nat.mul skipn]. reflexivity.
    + cbn [map List.concat firstn]. pose proof (frame_length n f Pf) as L.
      replace (frame_bytes n * S k + r) with (length (write_frame f) + (frame_bytes n * k + r)) by lia.
      rewrite firstn_app_2, IH by (cbn [length] in H; lia).
      rewrite <- app_assoc. do 2 f_equal.
      replace (S k * frame_bytes n) with (frame_bytes n + k * frame_bytes n) by lia.
      rewrite <- skipn_skipn', (skipn_len (frame_bytes n)) by exact L. reflexivity.
Qed.

Lemma cut_file h (n : nat) frames p : length h = header_bytes -> header_bytes <= p ->
  firstn p (write_dcd h frames) = h ++ firstn (p - header_bytes) (concat (map write_frame frames)).
Proof.
  intros L H. unfold write_dcd. replace p with (length h + (p - header_bytes)) at 1 by lia.
  apply firstn_app_2.
Qed.

Lemma Forall_firstn' {A} (P : A -> Prop) k l : List.Forall P l -> List.Forall P (firstn k l).
Proof.
  intro H. rewrite <- (firstn_skipn k l) in H. apply Forall_app in H. tauto.
Qed.

Lemma ref_truncated cord nset more title n frames p convang :
  let file := write_dcd (write_header cord nset more title n) frames in
  let whole := firstn ((p - header_bytes) / frame_bytes n) frames in
  header_ok cord nset more title n -> List.Forall (proper n) frames ->
  header_bytes <= p <= length file -> whole <> [] \/ convang = false ->
  read_dcd_data_ref deg (firstn p file) convang
  = Some (cells_of (angle_of convang) whole, coords_of whole).
Proof.
  cbv zeta. intros H P B C.
  pose proof (header_length _ _ _ _ _ H) as LH.
  rewrite (cut_file _ n) by (exact LH || lia).
  unfold write_dcd in B. rewrite app_length, LH, (frames_length n) in B by exact P.
  rewrite (cut_frames n) by (exact P || lia).
  rewrite app_assoc.
  apply ref_frames; auto.
  - apply Forall_firstn'. exact P.
  - rewrite firstn_length.
    pose proof (Nat.mod_upper_bound (p - header_bytes) (frame_bytes n)) as M.
    unfold frame_bytes in *. lia.
Qed.

Lemma header_cut cord nset more title n frames p :
  header_ok cord nset more title n -> p < header_bytes ->
  read_header (firstn p (write_dcd (write_header cord nset more title n) frames)) = None.
Proof. intros H L. apply read_header_short. rewrite firstn_length. lia. Qed.

Lemma read_truncated cord nset more title n frames p convang :
  let file := write_dcd (write_header cord nset more title n) frames in
  let whole := firstn ((p - header_bytes) / frame_bytes n) frames in
  header_ok cord nset more title n -> List.Forall (proper n) frames ->
  p <= length file ->
  read_dcd_data deg (firstn p file) convang =
  if (header_bytes <? p) && ((p - header_bytes) mod frame_bytes n =? 0)
  then Some (cells_of (angle_of convang) whole, coords_of whole) else None.
Proof.
  cbv zeta. intros H P B. rewrite read_spec.
  destruct (Nat.ltb_spec header_bytes p) as [h|h]; cbn [andb].
  - pose proof (header_length _ _ _ _ _ H) as LH.
    assert (R : read_header (firstn p (write_dcd (write_header cord nset more title n) frames))
              = Some (Z.of_nat n, firstn (p - header_bytes) (concat (map write_frame frames)))).
    { rewrite (cut_file _ n) by (exact LH || lia). apply read_header_ok. exact H. }
    rewrite R. destruct (Z.ltb_spec (Z.of_nat n) 0) as [h0|_]; [lia|]. rewrite Nat2Z.id.
    pose proof B as B'.
    unfold write_dcd in B'. rewrite app_length, LH, (frames_length n) in B' by exact P.
    rewrite firstn_length, (frames_length n), Nat.min_l by (exact P || lia).
    destruct (Nat.eqb_spec (p - header_bytes) 0) as [h0|_]; [lia|].
    destruct (Nat.eqb_spec ((p - header_bytes) mod frame_bytes n) 0) as [E|E]; [|reflexivity].
    apply ref_truncated; auto; [lia|].
    left. assert (BB : frame_bytes n <> 0) by (unfold frame_bytes; lia).
    pose proof (Nat.div_mod (p - header_bytes) (frame_bytes n) BB) as D.
    destruct ((p - header_bytes) / frame_bytes n) as [|k]; [lia|].
    destruct frames as [|f frames]; [cbn [length] in B'; lia | discriminate].
  - destruct (Nat.eq_dec p header_bytes) as [->|ne].
    + rewrite (cut_file _ n) by (lia || exact (header_length _ _ _ _ _ H)).
      rewrite Nat.sub_diag. cbn [firstn]. rewrite read_header_ok by exact H.
      destruct (Z.ltb_spec (Z.of_nat n) 0); reflexivity.
    + rewrite header_cut by (exact H || lia). reflexivity.
Qed.

(** ** The Fortran reader *)

Lemma fread_record want p rest :
  want <= length p -> (Z.of_nat (length p) < 2147483648)%Z -> fread want (record p ++ rest) = Ok p rest.
Proof.
  intros W L. unfold fread, record.
  set (m := le32 (Z.of_nat (length p))).
  assert (E : firstn 4 ((m ++ p ++ m) ++ rest) = m) by (rewrite <- app_assoc; apply firstn_len; reflexivity).
  assert (Im : i4 m = Z.of_nat (length p)) by (apply i4_le32; lia).
  destruct ((m ++ p ++ m) ++ rest) as [|b l0] eqn:El; [discriminate El|].
  rewrite <- El in *. clear El b l0. cbv zeta. rewrite E, Im, Nat2Z.id.
  destruct (Z.ltb_spec (Z.of_nat (length p)) 0) as [h|_]; [lia|].
  destruct (Nat.ltb_spec (length ((m ++ p ++ m) ++ rest)) (8 + length p)) as [h|_].
  { rewrite !app_length in h. unfold m in h. rewrite le32_length in h. lia. }
  rewrite <- !(skipn_skipn' _ 4).
  assert (S4 : skipn 4 ((m ++ p ++ m) ++ rest) = p ++ m ++ rest).
  { rewrite <- !app_assoc. apply skipn_len. reflexivity. }
  rewrite S4.
  rewrite (skipn_len (length p)) by reflexivity. rewrite (firstn_len 4) by reflexivity.
  rewrite Im, Z.eqb_refl. cbn [negb].
  destruct (Nat.ltb_spec (length p) want) as [h|_]; [lia|].
  f_equal.
  - apply firstn_len. reflexivity.
  - replace (8 + length p) with (4 + (length p + 4)) by lia.
    rewrite <- (skipn_skipn' _ 4), S4, (skipn_plus (length p)) by reflexivity.
    apply skipn_len. reflexivity.
Qed.

Lemma header_f_ok cord nset more title n rest :
  header_ok cord nset more title n ->
  header_f (write_header cord nset more title n ++ rest) = Some (nset, Z.of_nat n, rest).
Proof.
  intros (H1 & H2 & H3 & H4 & H5). unfold header_f, write_header, fread_stop.
  rewrite <- !app_assoc.
  rewrite fread_record; [| rewrite !app_length, le32_length; lia ..].
  rewrite fread_record by lia.
  rewrite fread_record by (rewrite le32_length; lia).
  cbn [chunks nth]. rewrite (skipn_len 4), (firstn_len 4) by (exact H1 || reflexivity).
  rewrite i4_le32 by exact H4.
  rewrite firstn_all2 by (rewrite le32_length; lia).
  rewrite i4_le32 by lia. reflexivity.
Qed.

Lemma walk_frames n frames fuel k :
  (4 * Z.of_nat n < 2147483648)%Z -> List.Forall (proper n) frames -> length frames < fuel ->
  walk fuel n k (concat (map write_frame frames)) = Some (k + length frames).
Proof.
  intros B P. revert fuel k. induction P as [|f frames Pf P IH]; intros fuel k F;
    (destruct fuel as [|fuel]; [cbn in F; lia|]).
  - cbn. f_equal. lia.
  - destruct (proper_get n f Pf) as (X & Y & Z).
    cbn [map List.concat walk]. unfold write_frame at 1, cell_record. rewrite <- !app_assoc.
    change (fa f ++ _) with (cell_payload f).
    rewrite fread_record by (rewrite (cell_payload_length n f Pf); lia).
    unfold fread_ignore, coord_record.
    change (concat (map x_of (atoms f))) with (payload x_of f).
    change (concat (map y_of (atoms f))) with (payload y_of f).
    change (concat (map z_of (atoms f))) with (payload z_of f).
    rewrite !fread_record by (rewrite (payload_length n f) by assumption; lia).
    rewrite IH by (cbn [length] in F; lia). f_equal. cbn [length]. lia.
Qed.

Lemma data_f_frames n frames k convang tail :
  (4 * Z.of_nat n < 2147483648)%Z -> List.Forall (proper n) frames -> k <= length frames ->
  data_f deg k n convang (concat (map write_frame frames) ++ tail)
  = Some (cells_of (angle_of convang) (firstn k frames), coords_of (firstn k frames)).
Proof.
  intros B P. revert k. induction P as [|f frames Pf P IH]; intros k K.
  - destruct k; [reflexivity | cbn in K; lia].
  - destruct k as [|k]; [reflexivity|].
    destruct (proper_get n f Pf) as (X & Y & Z).
    cbn [map List.concat data_f firstn]. unfold write_frame at 1, cell_record. rewrite <- !app_assoc.
    change (fa f ++ _) with (cell_payload f).
    unfold fread_stop at 1. rewrite fread_record by (rewrite (cell_payload_length n f Pf); lia).
    unfold coord_record.
    change (concat (map x_of (atoms f))) with (payload x_of f).
    change (concat (map y_of (atoms f))) with (payload y_of f).
    change (concat (map z_of (atoms f))) with (payload z_of f).
    unfold fread_stop.
    rewrite !fread_record by (rewrite (payload_length n f) by assumption; lia).
    rewrite IH by (cbn [length] in K; lia).
    assert (C : chunks 8 6 (cell_payload f) = [fa f; cos_gamma f; fb f; cos_beta f; cos_alpha f; fc f]).
    { rewrite <- (app_nil_r (cell_payload f)). apply (cell_chunks n). exact Pf. }
    rewrite C.
    assert (W : forall get, List.Forall (fun a => length (get a) = 4) (atoms f) ->
       chunks 4 n (payload get f) = map get (atoms f)).
    { intros get Hg. rewrite <- (app_nil_r (payload get f)). apply payload_chunks; assumption. }
    rewrite !W, coord_rows_atoms by assumption.
    cbn [cells_of coords_of map nth]. destruct convang; reflexivity.
Qed.

Lemma data_f_short n frames k convang :
  (4 * Z.of_nat n < 2147483648)%Z -> List.Forall (proper n) frames -> length frames < k ->
  data_f deg k n convang (concat (map write_frame frames)) = None.
Proof.
  intros B P. revert k. induction P as [|f frames Pf P IH]; intros k K;
    (destruct k as [|k]; [cbn in K; lia|]).
  - reflexivity.
  - destruct (proper_get n f Pf) as (X & Y & Z).
    cbn [map List.concat data_f firstn]. unfold write_frame at 1, cell_record. rewrite <- !app_assoc.
    change (fa f ++ _) with (cell_payload f).
    unfold fread_stop at 1. rewrite fread_record by (rewrite (cell_payload_length n f Pf); lia).
    unfold coord_record.
    change (concat (map x_of (atoms f))) with (payload x_of f).
    change (concat (map y_of (atoms f))) with (payload y_of f).
    change (concat (map z_of (atoms f))) with (payload z_of f).
    unfold fread_stop.
    rewrite !fread_record by (rewrite (payload_length n f) by assumption; lia).
    rewrite IH by (cbn [length] in K; lia). reflexivity.
Qed.

Lemma frames_le_bytes n frames : List.Forall (proper n) frames ->
  length frames <= length (concat (map write_frame frames)).
Proof. intro P. rewrite (frames_length n) by exact P. unfold frame_bytes. nia. Qed.

Lemma fortran_walk cord nset more title n frames convang :
  header_ok cord nset more title n -> List.Forall (proper n) frames -> 0 < n -> frames <> [] ->
  read_dcd_data_f deg (write_dcd (write_header cord nset more title n) frames) convang false
  = Some (cells_of (angle_of convang) frames, coords_of frames).
Proof.
  intros H P N NE. pose proof H as (_ & _ & _ & _ & B).
  unfold read_dcd_data_f, get_dcd_file_info, write_dcd.
  rewrite header_f_ok by exact H. rewrite Nat2Z.id.
  pose proof (frames_le_bytes n frames P) as LE.
  rewrite walk_frames by (assumption || lia). cbn [option_map Nat.add].
  assert (0 < length frames) by (destruct frames; [congruence | cbn; lia]).
  destruct (Z.ltb_spec 0 (Z.of_nat (length frames))) as [_|h]; [|lia].
  destruct (Z.ltb_spec 0 (Z.of_nat n)) as [_|h]; [|lia].
  destruct (Z.ltb_spec 0 (Z.of_nat (length frames))) as [_|h]; [|lia].
  cbn [negb orb]. rewrite !Nat2Z.id.
  rewrite <- (app_nil_r (concat _)), data_f_frames by (assumption || lia).
  rewrite firstn_all. reflexivity.
Qed.

Lemma fortran_header cord nset more title n frames convang :
  header_ok cord nset more title n -> List.Forall (proper n) frames -> 0 < n ->
  read_dcd_data_f deg (write_dcd (write_header cord nset more title n) frames) convang true
  = if (0 <? nset)%Z && (nset <=? Z.of_nat (length frames))%Z
    then Some (cells_of (angle_of convang) (firstn (Z.to_nat nset) frames),
               coords_of (firstn (Z.to_nat nset) frames))
    else None.
Proof.
  intros H P N. pose proof H as (_ & _ & _ & _ & B).
  unfold read_dcd_data_f, get_dcd_file_info, write_dcd.
  rewrite header_f_ok by exact H.
  destruct (Z.ltb_spec 0 nset) as [h|h]; [|reflexivity].
  destruct (Z.ltb_spec 0 (Z.of_nat n)) as [_|h']; [|lia].
  destruct (Z.ltb_spec 0 nset) as [_|h']; [|lia].
  cbn [negb orb andb]. rewrite Nat2Z.id.
  destruct (Z.leb_spec nset (Z.of_nat (length frames))) as [K|K].
  - rewrite <- (app_nil_r (concat _)). apply data_f_frames; auto. lia.
  - apply data_f_short; auto. lia.
Qed.

(** the writer stopped after the cell record of a frame, or between two coordinate records *)
Definition records_of (j : nat) (f : frame) : list Z :=
  concat (firstn j [cell_record f; coord_record x_of f; coord_record y_of f; coord_record z_of f]).

Lemma walk_partial n frames f j fuel k :
  (4 * Z.of_nat n < 2147483648)%Z -> List.Forall (proper n) frames -> proper n f -> 1 <= j <= 3 ->
  S (length frames) < fuel ->
  walk fuel n k (concat (map write_frame frames) ++ records_of j f) = Some (k + S (length frames)).
Proof.
  intros B P Pf J. revert fuel k. induction P as [|g frames Pg P IH]; intros fuel k F;
    (destruct fuel as [|fuel]; [cbn in F; lia|]).
  - cbn [map List.concat app walk].
    destruct (proper_get n f Pf) as (X & Y & Z).
    destruct j as [|j]; [lia|].
    unfold records_of. cbn [firstn List.concat]. unfold cell_record.
    change (fa f ++ _) with (cell_payload f).
    rewrite fread_record by (rewrite (cell_payload_length n f Pf); lia).
    assert (E : fread_ignore (4*n) (fread_ignore (4*n) (fread_ignore (4*n)
       (concat (firstn j [coord_record x_of f; coord_record y_of f; coord_record z_of f])))) = []).
    { unfold fread_ignore, coord_record.
      change (concat (map x_of (atoms f))) with (payload x_of f).
      change (concat (map y_of (atoms f))) with (payload y_of f).
      change (concat (map z_of (atoms f))) with (payload z_of f).
      destruct j as [|[|[|j]]]; [| | |lia]; cbn [firstn List.concat].
      - reflexivity.
      - rewrite fread_record by (rewrite (payload_length n f) by assumption; lia). reflexivity.
      - rewrite fread_record by (rewrite (payload_length n f) by assumption; lia).
        rewrite fread_record by (rewrite (payload_length n f) by assumption; lia). reflexivity. }
    rewrite E. destruct fuel as [|fuel]; [cbn in F; lia|]. cbn. f_equal. lia.
  - destruct (proper_get n g Pg) as (X & Y & Z).
    cbn [map List.concat walk]. unfold write_frame at 1, cell_record at 1. rewrite <- !app_assoc.
    change (fa g ++ _) with (cell_payload g).
    rewrite fread_record by (rewrite (cell_payload_length n g Pg); lia).
    unfold fread_ignore, coord_record.
    change (concat (map x_of (atoms g))) with (payload x_of g).
    change (concat (map y_of (atoms g))) with (payload y_of g).
    change (concat (map z_of (atoms g))) with (payload z_of g).
    rewrite !fread_record by (rewrite (payload_length n g) by assumption; lia).
    rewrite IH by (cbn [length] in F; lia). f_equal. cbn [length]. lia.
Qed.

Lemma data_f_partial n frames f j convang :
  (4 * Z.of_nat n < 2147483648)%Z -> List.Forall (proper n) frames -> proper n f -> 1 <= j <= 3 ->
  data_f deg (S (length frames)) n convang (concat (map write_frame frames) ++ records_of j f) = None.
Proof.
  intros B P Pf J. induction P as [|g frames Pg P IH].
  - destruct (proper_get n f Pf) as (X & Y & Z).
    cbn [map List.concat app data_f length].
    destruct j as [|j]; [lia|].
    unfold records_of. cbn [firstn List.concat]. unfold cell_record, fread_stop.
    change (fa f ++ _) with (cell_payload f).
    rewrite fread_record by (rewrite (cell_payload_length n f Pf); lia).
    unfold coord_record.
    change (concat (map x_of (atoms f))) with (payload x_of f).
    change (concat (map y_of (atoms f))) with (payload y_of f).
    change (concat (map z_of (atoms f))) with (payload z_of f).
    destruct j as [|[|[|j]]]; [| | |lia]; cbn [firstn List.concat].
    + reflexivity.
    + rewrite fread_record by (rewrite (payload_length n f) by assumption; lia). reflexivity.
    + rewrite fread_record by (rewrite (payload_length n f) by assumption; lia).
      rewrite fread_record by (rewrite (payload_length n f) by assumption; lia). reflexivity.
  - destruct (proper_get n g Pg) as (X & Y & Z).
    cbn [map List.concat length]. remember (S (length frames)) as m.
    cbn [data_f]. unfold write_frame at 1, cell_record at 1. rewrite <- !app_assoc.
    change (fa g ++ _) with (cell_payload g).
    unfold fread_stop. rewrite fread_record by (rewrite (cell_payload_length n g Pg); lia).
    unfold coord_record at 1 2 3.
    change (concat (map x_of (atoms g))) with (payload x_of g).
    change (concat (map y_of (atoms g))) with (payload y_of g).
    change (concat (map z_of (atoms g))) with (payload z_of g).
    rewrite !fread_record by (rewrite (payload_length n g) by assumption; lia).
    rewrite IH. reflexivity.
Qed.

Lemma fortran_partial cord nset more title n frames f j convang :
  header_ok cord nset more title n -> List.Forall (proper n) frames -> proper n f -> 0 < n ->
  1 <= j <= 3 ->
  read_dcd_data_f deg (write_dcd (write_header cord nset more title n) frames ++ records_of j f) convang false
  = None.
Proof.
  intros H P Pf N J. pose proof H as (_ & _ & _ & _ & B).
  unfold read_dcd_data_f, get_dcd_file_info, write_dcd. rewrite <- app_assoc.
  rewrite header_f_ok by exact H. rewrite Nat2Z.id.
  assert (1 <= length (records_of j f)).
  { unfold records_of. destruct j as [|j]; [lia|]. cbn [firstn List.concat].
    rewrite app_length. unfold cell_record. rewrite record_length. lia. }
  pose proof (frames_le_bytes n frames P) as LE.
  rewrite walk_partial by (rewrite ?app_length; assumption || lia). cbn [option_map Nat.add].
  destruct (Z.ltb_spec 0 (Z.of_nat (S (length frames)))) as [_|h]; [|lia].
  destruct (Z.ltb_spec 0 (Z.of_nat n)) as [_|h]; [|lia].
  destruct (Z.ltb_spec 0 (Z.of_nat (S (length frames)))) as [_|h]; [|lia].
  cbn [negb orb]. rewrite !Nat2Z.id.
  apply data_f_partial; assumption.
Qed.

End Readers.
