(** Model of the command line programs around the library:
    applications/average/cencalvmavg.cc, applications/create/cencalvmgen.cc,
    applications/create/cencalvmpack.cc, extensions/applications/vsgrader/gradecencalvm.cc
    and applications/query/cencalvminfo.cc.

    Simplifications: what the library prints (progress reports, points left out) is not
    here but in Report.v; what main() prints is (the output of cencalvminfo is its result); the words of a command line hold no null
    character.  The function usage() of each program ends with exit(1), so the calls of
    exit(0) after it are never reached. *)
From Coq Require Import ZArith Bool String Ascii List.
From Verif Require Import Outcome Float Payload Addr AvgEngine Geom ErrorHandler VMQuery Store Averager VMCreator Stream
  GetOpt QueryApp VsGrader.
From Verif Require GridIngester VsRun.
Import ListNotations.
Open Scope Z_scope.

(** The variables that the parseArgs functions set. *)
Record names := mkNames { f_params : string; f_in : string; f_out : string; f_tmp : string; f_cache : Z }.
Definition with_params (c : names) s := mkNames s (f_in c) (f_out c) (f_tmp c) (f_cache c).
Definition with_in (c : names) s := mkNames (f_params c) s (f_out c) (f_tmp c) (f_cache c).
Definition with_out (c : names) s := mkNames (f_params c) (f_in c) s (f_tmp c) (f_cache c).
Definition with_tmp (c : names) s := mkNames (f_params c) (f_in c) (f_out c) s (f_cache c).
Definition with_cache (c : names) n := mkNames (f_params c) (f_in c) (f_out c) (f_tmp c) n.

(** The loop over getopt(), the same in the four programs (cencalvmavg.cc:55-74,
    cencalvmgen.cc:62-89, cencalvmpack.cc:54-77, gradecencalvm.cc:66-97): nparsed counts two
    words for each option with argument, -h and anything unexpected ends in usage(), which is
    [None] here.  [handle] is the body for an option with argument. *)
Fixpoint scan (handle : names -> ascii -> string -> option names) (n : Z) (c : names) (evs : list optev)
  : option (Z * names) :=
  match evs with
  | [] => Some (n, c)
  | Arg k v :: r => match handle c k v with Some c' => scan handle (n + 2) c' r | None => None end
  | Flag _ :: _ => None
  | Unknown :: _ => None
  end.
Definition empty (s : string) : bool := String.eqb s "".
Definition argc (args : list string) : Z := Z.of_nat (S (List.length args)).

(** std::exception: what() on standard error, exit code 1 (e.g. cencalvmavg.cc:97-99). *)
Definition ended {A} (r : disk * outcome A) : disk * outcome (Z * list said) :=
  match r with
  | (d, Val _) => (d, Val (0, []))
  | (d, Throw m) => (d, Val (1, [Said m]))
  | (d, Abort) => (d, Abort)
  | (d, UB w) => (d, UB w)
  end.
Definition usageExit (d : disk) : disk * outcome (Z * list said) := (d, Val (1, [Usage])).

(** ** cencalvmavg.cc *)
(** cencalvmavg.cc:56-73 *)
Definition avgOption (c : names) (k : ascii) (v : string) : option names :=
  match k with
  | "i"%char => Some (with_in c v)
  | "o"%char => Some (with_out c v)
  | _ => None
  end.
(** cencalvmavg.cc:40-79 parseArgs *)
Definition avg_options : string := "hi:o:".
Definition avgArgs (args : list string) : option names :=
  match scan avgOption 1 (mkNames "" "" "" "" 0) (getopts (options avg_options) None args) with
  | Some (n, c) => if negb (n =? argc args) || empty (f_in c) || empty (f_out c) then None else Some c
  | None => None
  end.
(** cencalvmavg.cc:82-105 main *)
Definition avgMain (E : etree) (args : list string) (d : disk) : disk * outcome (Z * list said) :=
  match avgArgs args with
  | None => usageExit d
  | Some c => ended (average E (f_in c) (f_out c) d)
  end.

(** ** cencalvmgen.cc *)
(** cencalvmgen.cc:63-88; -l, which the usage message mentions, is not handled. *)
Definition genOption (T : texts) (c : names) (k : ascii) (v : string) : option names :=
  match k with
  | "c"%char => Some (with_cache c (t_atoi T v))
  | "i"%char => Some (with_params c v)
  | "o"%char => Some (with_out c v)
  | "t"%char => Some (with_tmp c v)
  | _ => None
  end.
(** cencalvmgen.cc:42-95 parseArgs; the default of the cache size is in main (106). *)
Definition gen_options : string := "c:hi:o:t:".
Definition genArgs (T : texts) (args : list string) : option names :=
  match scan (genOption T) 1 (mkNames "" "" "" "" 512) (getopts (options gen_options) None args) with
  | Some (n, c) =>
      if negb (n =? argc args) || empty (f_params c) || empty (f_out c) || empty (f_tmp c) then None else Some c
  | None => None
  end.
(** cencalvmgen.cc:107-110 *)
Definition genDescription : string :=
  ("U.S. Geological Survey" ++ nl ++
   "Thomas Brocher, Robert Jachens, Carl Wentworth, Russel Graymer, Robert Simpson, Brad Aagaard")%string.
(** cencalvmgen.cc:98-135 main.  The cache size, like in GridIngester.v, has no effect. *)
Definition genMain (E : etree) (F : numfmt) (T : texts) (L : libm) (files : GridIngester.texts)
    (args : list string) (d : disk) : disk * outcome (Z * list said) :=
  match genArgs T args with
  | None => usageExit d
  | Some c =>
      let '(d', _, o) := GridIngester.run E F files L
        (GridIngester.mkIngester (f_params c) (f_out c) (f_tmp c) genDescription true) d in
      ended (d', o)
  end.

(** ** cencalvmpack.cc *)
(** cencalvmpack.cc:55-76 *)
Definition packOption (T : texts) (c : names) (k : ascii) (v : string) : option names :=
  match k with
  | "c"%char => Some (with_cache c (t_atoi T v))
  | "i"%char => Some (with_in c v)
  | "o"%char => Some (with_out c v)
  | _ => None
  end.
(** cencalvmpack.cc:37-82 parseArgs; 91 default of the cache size *)
Definition pack_options : string := "c:hi:o:".
Definition packArgs (T : texts) (args : list string) : option names :=
  match scan (packOption T) 1 (mkNames "" "" "" "" 64) (getopts (options pack_options) None args) with
  | Some (n, c) => if negb (n =? argc args) || empty (f_in c) || empty (f_out c) then None else Some c
  | None => None
  end.
(** cencalvmpack.cc:85-107 main.  The cache size is handed to etree_open without a check and,
    like in VMCreator.v, has no effect. *)
Definition packMain (E : etree) (T : texts) (args : list string) (d : disk) : disk * outcome (Z * list said) :=
  match packArgs T args with
  | None => usageExit d
  | Some c => ended (packDB E (f_out c) (f_in c) d)
  end.

(** ** gradecencalvm.cc *)
(** gradecencalvm.cc:67-96 *)
Definition gradeOption (T : texts) (c : names) (k : ascii) (v : string) : option names :=
  match k with
  | "c"%char => Some (with_cache c (t_atoi T v))
  | "i"%char => Some (with_in c v)
  | "o"%char => Some (with_out c v)
  | "p"%char => Some (with_params c v)
  | "t"%char => Some (with_tmp c v)
  | _ => None
  end.
(** gradecencalvm.cc:43-104 parseArgs; 115 default of the cache size *)
Definition grade_options : string := "c:hi:o:p:t:".
Definition gradeArgs (T : texts) (args : list string) : option names :=
  match scan (gradeOption T) 1 (mkNames "" "" "" "" 128) (getopts (options grade_options) None args) with
  | Some (n, c) =>
      if negb (n =? argc args) || empty (f_params c) || empty (f_in c) || empty (f_out c) || empty (f_tmp c)
      then None else Some c
  | None => None
  end.
(** gradecencalvm.cc:122-128 with VsGrader.icc:17-51: the object that is run; a cache size
    that is not positive is ignored. *)
Definition gradeObject (c : names) : VsRun.vsgrader :=
  let v := VsRun.vg_new in
  let v := VsRun.mkVsg (f_in c) (f_out c) (f_tmp c) (f_params c) (VsRun.vg_cache v) (VsRun.vg_res v)
             (VsRun.vg_type v) (VsRun.vg_g v) in
  if 0 <? f_cache c then VsRun.set_cache v (f_cache c) else v.
(** gradecencalvm.cc:107-138 main *)
Definition gradeMain {DB} (EQ : env DB) (E : etree) (F : numfmt) (T : texts) (L : libm) (files : GridIngester.texts)
    (opens : disk -> string -> bool) (G : gstore (list (addr * payload)) payload)
    (args : list string) (fs : ErrorHandler.files) (d : disk) : disk * outcome (Z * list said) :=
  match gradeArgs T args with
  | None => usageExit d
  | Some c => ended (VsRun.run EQ E F files L opens G (gradeObject c) fs d)
  end.

(** ** cencalvminfo.cc *)
(** cencalvminfo.cc:41-82 main, with parseArgs (27-38).  The result is the exit code, what is
    on standard error and what is on standard output.  The number of octants is the number of
    records (64 bits are enough). *)
Definition infoMain (E : etree) (args : list string) (d : disk) : Z * list said * string :=
  match args with
  | [name] =>
      match openRead E name "" d with
      | (_, Val f) =>
          match d_meta f with
          | None => (-1, [Said "Could not retrieve database metadata."], "")
          | Some m =>
              let out := "Database metadata:" ++ nl ++ m ++ nl ++ nl in
              match d_schema f with
              | None => (-1, [Said "Could not retrieve database schema."], out)
              | Some s =>
                  let out := out ++ "Database schema:" ++ nl ++ s ++ nl ++ nl ++
                             "Number of octants: " ++ showZ (Z.of_nat (List.length (d_recs f))) ++ nl in
                  if et_close E name then (0, [], out) else (-1, [Said (et_error E)], out)
              end
          end
      | _ => (-1, [Said ("Could not open etree database '" ++ name ++ "'.")], "")
      end
  | _ => (1, [Usage], "")
  end%string.
