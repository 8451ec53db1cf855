(** Specification: reading the marker segments of a file, and several files one after the other (property C61).
    Nothing here knows about images: T.81 B.1.1 only (marker, length, payload; coded data up to the next marker). *)
From Verif Require Import Rust MImage MApi SApi.
From Coq Require Import ZArith List Bool.
Import ListNotations.
Open Scope Z_scope.

(** Go over entropy-coded data, up to the first 255 that is not followed by a stuffed zero or part of RST0..RST7. *)
Fixpoint skip_coded (l : list Z) : list Z :=
  match l with
  | [] => []
  | b :: l' =>
    if b =? 255 then
      match l' with
      | m :: l'' => if (m =? 0) || ((208 <=? m) && (m <=? 215)) then skip_coded l'' else l
      | [] => l
      end
    else skip_coded l'
  end.
(** The segments (marker and payload) up to EOI, and what follows it. *)
Fixpoint read_segments (fuel : nat) (l : list Z) : option (list (Z * list Z) * list Z) :=
  match fuel, l with
  | S fuel, a :: m :: l1 =>
    if negb (a =? 255) then None
    else if m =? 217 then Some ([], l1)                                   (* EOI *)
    else match l1 with
         | hi :: lo :: l2 =>
           let n := 256 * hi + lo - 2 in
           if (n <? 0) || (Z.of_nat (length l2) <? n) then None
           else
             let rest := skipn (Z.to_nat n) l2 in
             match read_segments fuel (if m =? 218 then skip_coded rest else rest) with
             | Some (segs, r) => Some ((m, firstn (Z.to_nat n) l2) :: segs, r)
             | None => None
             end
         | _ => None
         end
  | _, _ => None
  end.
Definition read_file (l : list Z) : option (list (Z * list Z) * list Z) :=
  match l with
  | a :: b :: l1 => if (a =? 255) && (b =? 216) then read_segments (length l) l1 else None   (* SOI *)
  | _ => None
  end.
(** Cut a stream into files. *)
Fixpoint split_files (fuel : nat) (l : list Z) : option (list (list Z)) :=
  match fuel, l with
  | _, [] => Some []
  | S fuel, _ =>
    match read_file l with
    | Some (_, rest) =>
      match split_files fuel rest with
      | Some fs => Some (firstn (length l - length rest) l :: fs)
      | None => None
      end
    | None => None
    end
  | _, _ => None
  end.
Definition files_of (l : list Z) : option (list (list Z)) := split_files (length l) l.

(** The application segments among them, by number. *)
Definition app_only (segs : list (Z * list Z)) : list (Z * list Z) :=
  flat_map (fun '(m, d) => if (224 <=? m) && (m <=? 239) then [(m - 224, d)] else []) segs.

(** Calls made one after the other, each with its own encoder on the same writer (passed as &mut). *)
Record job := { jb_quality : Z; jb_calls : list call; jb_data : list Z; jb_width : Z; jb_height : Z; jb_color : ctype }.
Definition run_job (P : platform) (j : job) : prog unit :=
  run_encode P (jb_quality j) (jb_calls j) (jb_data j) (jb_width j) (jb_height j) (jb_color j).
Fixpoint run_jobs (P : platform) (js : list job) : prog unit :=
  match js with
  | [] => Ret tt
  | j :: js => run_job P j ;;; run_jobs P js
  end.

(** A reader finds exactly [bytes], with the application segments of the configuration in front. *)
Definition reads_as (s : settings) (color : jcolor) (bytes rest : list Z) : Prop :=
  exists segs, read_file (bytes ++ rest) = Some (segs, rest) /\
    app_only segs = apps_for s color /\
    firstn (length (apps_for s color)) segs = map (fun '(nr, d) => (224 + nr, d)) (apps_for s color).
