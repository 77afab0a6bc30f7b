(** pwscf.ibrav2cell: primitive cells of the Bravais lattices from PWscf's ibrav and
    celldm (src/pwtools/pwscf.py 530-678). Real arithmetic stands for floats. None is
    any exception: a needed entry that is None (UnboundLocalError, TypeError),
    math.acos or math.sqrt outside their domain (ValueError), division by zero, an
    unknown ibrav. *)
From Coq Require Import Reals ZArith.
From Verif Require Import Vec3.
Open Scope R_scope.
(** celldm, a sequence of 6 numbers or None (558-560, 573). *)
Record dm := DM { aa_ : option R; bb_aa_ : option R; cc_aa_ : option R;
                  cos_alpha_ : option R; cos_beta_ : option R; cos_gamma_ : option R }.
Definition bind {A B} (x : option A) (f : A -> option B) : option B := match x with Some a => f a | None => None end.
Notation "x <- m ;; f" := (bind m (fun x => f)) (at level 61, m at next level, right associativity).
(** math.sqrt and math.acos raise ValueError outside their domain; x / 0.0 raises
    ZeroDivisionError (Python floats, not arrays). *)
Definition msqrt (x : R) : option R := if Rle_dec 0 x then Some (sqrt x) else None.
Definition macos (x : R) : option R :=
  if Rle_dec (-1) x then if Rle_dec x 1 then Some (acos x) else None else None.
Definition mdiv (x y : R) : option R := if Req_EM_T y 0 then None else Some (x / y).
(** bb = bb_aa * aa when bb_aa is given: unbound (inner None) otherwise, an error
    (outer None) when aa is None; the same for cc (574-577). *)
Definition times (r a : option R) : option (option R) :=
  match r with None => Some None | Some r => match a with Some a => Some (Some (r * a)) | None => None end end.
(** sin_gamma (578-579): acos is evaluated for every ibrav when cos_gamma is given. *)
Definition singamma (g : option R) : option (option R) :=
  match g with None => Some None | Some g => x <- macos g ;; Some (Some (sin x)) end.
Definition smul (s : R) (m : mat) : mat := Mat (scale s (ra m)) (scale s (rb m)) (scale s (rc m)).
Definition ibrav2cell (ibrav : Z) (d : dm) : option mat :=                        (* 530-678 *)
  obb <- times (bb_aa_ d) (aa_ d) ;;
  occ <- times (cc_aa_ d) (aa_ d) ;;
  osg <- singamma (cos_gamma_ d) ;;
  match ibrav with
  | 1%Z => aa <- aa_ d ;; Some (smul aa (Mat (Vec 1 0 0) (Vec 0 1 0) (Vec 0 0 1)))          (* 580-583 *)
  | 2%Z => aa <- aa_ d ;;                                                                   (* 584-589 *)
      Some (smul (1 / 2 * aa) (Mat (Vec (-1) 0 1) (Vec 0 1 1) (Vec (-1) 1 0)))
  | 3%Z => aa <- aa_ d ;;                                                                   (* 590-595 *)
      Some (smul (1 / 2 * aa) (Mat (Vec 1 1 1) (Vec (-1) 1 1) (Vec (-1) (-1) 1)))
  | 4%Z => aa <- aa_ d ;; cc <- occ ;; q <- mdiv cc aa ;;                                   (* 596-601 *)
      Some (smul aa (Mat (Vec 1 0 0) (Vec (- 1 / 2) (sqrt 3 / 2) 0) (Vec 0 0 q)))
  | 5%Z => aa <- aa_ d ;; ca <- cos_alpha_ d ;;                                             (* 602-614 *)
      tx <- msqrt ((1 - ca) / 2) ;; ty <- msqrt ((1 - ca) / 6) ;; tz <- msqrt ((1 + 2 * ca) / 3) ;;
      Some (smul aa (Mat (Vec tx (- ty) tz) (Vec 0 (2 * ty) tz) (Vec (- tx) (- ty) tz)))
  | 6%Z => aa <- aa_ d ;; cc <- occ ;; q <- mdiv cc aa ;;                                   (* 615-620 *)
      Some (smul aa (Mat (Vec 1 0 0) (Vec 0 1 0) (Vec 0 0 q)))
  | 7%Z => aa <- aa_ d ;; cc <- occ ;; q <- mdiv cc aa ;;                                   (* 621-626 *)
      Some (smul (1 / 2 * aa) (Mat (Vec 1 (-1) q) (Vec 1 1 q) (Vec (-1) (-1) q)))
  | 8%Z => aa <- aa_ d ;; bb <- obb ;; cc <- occ ;;                                         (* 627-632 *)
      Some (Mat (Vec aa 0 0) (Vec 0 bb 0) (Vec 0 0 cc))
  | 9%Z => aa <- aa_ d ;; bb <- obb ;; cc <- occ ;;                                         (* 633-638 *)
      Some (Mat (Vec (aa / 2) (bb / 2) 0) (Vec (- aa / 2) (bb / 2) 0) (Vec 0 0 cc))
  | 10%Z => aa <- aa_ d ;; bb <- obb ;; cc <- occ ;;                                        (* 639-644 *)
      Some (Mat (Vec (aa / 2) 0 (cc / 2)) (Vec (aa / 2) (bb / 2) 0) (Vec 0 (bb / 2) (cc / 2)))
  | 11%Z => aa <- aa_ d ;; bb <- obb ;; cc <- occ ;;                                        (* 645-650 *)
      Some (Mat (Vec (aa / 2) (bb / 2) (cc / 2)) (Vec (- aa / 2) (bb / 2) (cc / 2)) (Vec (- aa / 2) (- bb / 2) (cc / 2)))
  | 12%Z => aa <- aa_ d ;; bb <- obb ;; cc <- occ ;; cg <- cos_gamma_ d ;; sg <- osg ;;     (* 651-656 *)
      Some (Mat (Vec aa 0 0) (Vec (bb * cg) (bb * sg) 0) (Vec 0 0 cc))
  | 13%Z => aa <- aa_ d ;; bb <- obb ;; cc <- occ ;; cg <- cos_gamma_ d ;; sg <- osg ;;     (* 657-662 *)
      Some (Mat (Vec (aa / 2) 0 (- cc / 2)) (Vec (bb * cg) (bb * sg) 0) (Vec (aa / 2) 0 (cc / 2)))
  | 14%Z => aa <- aa_ d ;; bb <- obb ;; cc <- occ ;; cg <- cos_gamma_ d ;; sg <- osg ;;     (* 663-675 *)
      cb <- cos_beta_ d ;; ca <- cos_alpha_ d ;;
      vy <- mdiv (cc * (ca - cb * cg)) sg ;;
      rt <- msqrt (1 + 2 * ca * cb * cg - Rsqr ca - Rsqr cb - Rsqr cg) ;;
      vz <- mdiv (cc * rt) sg ;;
      Some (Mat (Vec aa 0 0) (Vec (bb * cg) (bb * sg) 0) (Vec (cc * cb) vy vz))
  | _ => None                                                                               (* 676-677 *)
  end.
