(** Specification vocabulary for what the programs print. *)
From Coq Require Import ZArith Bool String List.
From Verif Require Import Outcome Float Payload Addr AvgEngine SpecAvg Geom Store Stream GridIngester SpecText SpecGrid SpecInfo.
Import ListNotations.
Open Scope string_scope.
Open Scope Z_scope.

(** A text made of lines, each with its line break. *)
Fixpoint as_lines (l : list string) : string :=
  match l with [] => "" | x :: r => x ++ newline ++ as_lines r end.

(** The report of averaging the records [inp] to the records [db]: the numbers of octants of
    both, the number of octants that were added, and of those the numbers with the children
    at the far side of an axis, of two axes, of all axes missing, and of all other octants
    with missing children. *)
Definition averaging_report (inp : list (addr * payload)) (db : list orec) (text : string) : Prop :=
  exists n m i x y z xy yz xz xyz other,
    spells n (Z.of_nat (List.length inp)) /\ spells m (Z.of_nat (List.length db)) /\
    spells i (Z.of_nat (List.length (interior_records inp db))) /\
    spells x (count_with inp db missing_x) /\ spells y (count_with inp db missing_y) /\ spells z (count_with inp db missing_z) /\
    spells xy (count_with inp db missing_xy) /\ spells yz (count_with inp db missing_yz) /\ spells xz (count_with inp db missing_xz) /\
    spells xyz (count_with inp db missing_xyz) /\ spells other (count_irregular inp db) /\
    text = as_lines ["Summary of etree averaging"; "Number of octants"; "  IN: " ++ n;
      "  OUT total: " ++ m ++ ", interior: " ++ i; "Incomplete octants"; "  x: " ++ x; "  y: " ++ y; "  z: " ++ z;
      "  xy: " ++ xy; "  yz: " ++ yz; "  xz: " ++ xz; "  xyz: " ++ xyz; "  invalid: " ++ other; ""].

(** ** Grid files *)
(** Points at the beginning of a grid file, in order. *)
Definition points_read (F : numfmt) (text : string) (pts : list gridline) : Prop :=
  pts = [] \/
  exists t e hw lines rest rh rv n, text = (t ++ e)%string /\ laid_out (hw ++ concat lines ++ rest)%list t /\
    header F hw rh rv n /\ Forall2 (reads F) lines pts.
(** All the points of a grid file; none if it has no proper header. *)
Definition all_points (F : numfmt) (L : libm) (text : string) (lev : Z) (pts : list gridline) : Prop :=
  grid_file F L text lev pts \/ (~ has_header F text /\ pts = []).

(** A point that is left out: its place, elevation in m. *)
Definition place_of (sci : f64 -> string) (l : gridline) : string :=
  sci (l_lon l) ++ ", " ++ sci (l_lat l) ++ ", " ++ sci (si64 (l_elev l)).
Definition left_out (sci : f64 -> string) (l : gridline) : string :=
  place_of sci l ++ (if p_block (l_pay l) =? 0 then ", Ignoring" else ", No fault block").
Definition left_out_lines (sci : f64 -> string) (pts : list gridline) : string :=
  as_lines (map (left_out sci) (no_data_points pts)).

Definition begin_line (file : string) : string := "Beginning processing of '" ++ file ++ "'...".
(** The numbers of points with and without data *)
Definition done_line (file : string) (pts : list gridline) (line : string) : Prop :=
  exists a i, spells a (count (filter has_data pts)) /\ spells i (count (no_data_points pts)) /\
    line = "Done procesing '" ++ file ++ "'.  # points added: " ++ a ++ ",  # points ignored: " ++ i.
Definition caught_text (file : string) (pts : list gridline) (msg text : string) : Prop :=
  exists a i, spells a (count (filter has_data pts)) /\ spells i (count (no_data_points pts)) /\
    text = "Caught error while reading grid from '" ++ file ++ "'." ++ newline ++
      "Successfully added " ++ a ++ " points and ignored " ++ i ++ " others." ++ newline ++ "Error message: " ++ msg.
(** The lines about each of the files, in order *)
Definition file_lines (files : list string) (ptss : list (list gridline)) (lines : list string) : Prop :=
  exists dones, Forall2 (fun fp dn => done_line (fst fp) (snd fp) dn) (combine files ptss) dones /\
    List.length files = List.length ptss /\
    lines = flat_map (fun fd => [begin_line (fst fd); snd fd]) (combine files dones).

(** The lines of cencalvmgen before and after those about the files *)
Definition first_lines (number ft : string) : list string :=
  ["Starting processing of " ++ number ++ " grid files."; "Opening new etree database '" ++ ft ++ "'."].
Definition ready_line : string := "Finished preparing database.".
Definition packing_line (fin fout : string) : string :=
  "Creating packed etree database '" ++ fout ++ "' from unpacked etree database '" ++ fin ++ "'.".
Definition last_lines (ft fout : string) : list string :=
  ["Closing database '" ++ ft ++ "'."; packing_line ft fout].
Definition packed_line : string := "Done packing etree database.".

(** Grid files of which all the points are read *)
Definition files_read (F : numfmt) (L : libm) (T : texts) (files : list string) (ptss : list (list gridline)) : Prop :=
  Forall2 (fun file pts => exists text lev, T file = Some text /\ all_points F L text lev pts) files ptss.
(** The reading of the files stops with the exception [m] at one of them; [lines] on standard
    output and [err] on standard error about the files up to it *)
Definition stopped_at (F : numfmt) (L : libm) (T : texts) (sci : f64 -> string) (files lines : list string) (err m : string) : Prop :=
  exists before file after ptss lines', files = (before ++ file :: after)%list /\
    files_read F L T before ptss /\ file_lines before ptss lines' /\
    ((T file = None /\ m = "Could not open grid file '" ++ file ++ "' for reading." /\
      lines = lines' /\ err = left_out_lines sci (concat ptss)) \/
     (exists text pts ct, T file = Some text /\ points_read F text pts /\ caught_text file pts m ct /\
      lines = (lines' ++ [begin_line file])%list /\
      err = left_out_lines sci (concat ptss) ++ left_out_lines sci pts ++ ct)).
