(** Specification vocabulary for processes that are killed and for processes that run at the
    same time. *)
From Coq Require Import ZArith Bool String Ascii List.
From Verif Require Import Outcome Float Payload Addr AvgEngine Geom Store ErrorHandler VMQuery VsGrader Stream GetOpt QueryApp
  SpecHist SpecApp SmallApps SpecSmall Steps.
From Verif Require GridIngester.
Import ListNotations.
Open Scope Z_scope.

(** The files that a process has open for writing, after a call *)
Definition writing {R} (c : call R) (r : R) (W : list string) : list string :=
  match c in call R return R -> list string with
  | CNew n => fun _ => n :: W
  | CEdit n => fun r => match r with Some _ => n :: W | None => W end
  | CClose n => fun _ => remove string_dec n W
  | _ => fun _ => W
  end r.
(** [d'] is a possible state of the files when the program [p] that was started with the
    files [d] is killed: it made some of its calls, and of the files that were open for
    writing then anything may be left.  [W]: files open for writing at the start *)
Fixpoint killed (E : etree) (opens : disk -> string -> bool) {A} (W : list string) (p : prog A) (d d' : disk) : Prop :=
  (forall n, ~ In n W -> d' n = d n) \/
  match p with
  | Done _ => False
  | Step c k => let (d1, r) := perform E opens c d in killed E opens (writing c r W) (k r) d1 d'
  end.

(** Files open for writing when the program [p] that was started with the
    files [d] has come to its end *)
Fixpoint held (E : etree) (opens : disk -> string -> bool) {A} (W : list string) (p : prog A) (d : disk) : list string :=
  match p with
  | Done _ => W
  | Step c k => let (d1, r) := perform E opens c d in held E opens (writing c r W) (k r) d1
  end.

(** In a run of [p] from [d] only files are written or closed that are open for writing. *)
Fixpoint orderly (E : etree) (opens : disk -> string -> bool) {A} (W : list string) (p : prog A) (d : disk) : Prop :=
  match p with
  | Done _ => True
  | Step c k =>
      match c with CChange n _ | CInsert n _ _ | CClose n => In n W | _ => True end /\
      let (d1, r) := perform E opens c d in orderly E opens (writing c r W) (k r) d1
  end.

(** Whether a file can be opened depends on that file only. *)
Definition local_open (E : etree) (opens : disk -> string -> bool) : Prop :=
  forall d d' n, d n = d' n -> et_open E d n = et_open E d' n /\ opens d n = opens d' n.
(** Whether it can be created, too. *)
Definition local_create (E : etree) : Prop := forall d d' n, d n = d' n -> et_create E d n = et_create E d' n.
Definition creatable (E : etree) (n : string) : Prop := forall d, et_create E d n = true.

(** Two runs end in the same way with the same files. *)
Definition same_end {A} (r r' : disk * outcome A) : Prop := snd r = snd r' /\ forall n, fst r n = fst r' n.

(** Processes that run at the same time: in each step one of them makes its next call; the
    result when all have ended *)
Inductive together (E : etree) (opens : disk -> string -> bool) {A} : list (prog A) -> disk -> disk -> list (outcome A) -> Prop :=
| together_end os d : together E opens (map Done os) d d os
| together_step ps qs R (c : call R) k d d1 r d' os :
    perform E opens c d = (d1, r) -> together E opens (ps ++ k r :: qs) d1 d' os ->
    together E opens (ps ++ Step c k :: qs) d d' os.

(** ** The programs as jobs *)
Inductive job := Avg (args : list string) | Pack (args : list string) | Gen (args : list string) | Grade (args : list string).
Definition option_file (letters : list ascii) (args : list string) (k : ascii) (n : string) : Prop :=
  exists kvs, command letters args kvs /\ named k kvs n.
(** The databases that a job writes and that it only reads, by its command line.  (What
    follows -i of cencalvmgen and -p of gradecencalvm are texts.) *)
Definition writes (j : job) (n : string) : Prop :=
  match j with
  | Avg args => option_file avg_letters args "o" n
  | Pack args => option_file pack_letters args "o" n
  | Gen args => option_file gen_letters args "o" n \/ option_file gen_letters args "t" n
  | Grade args => option_file grade_letters args "o" n \/ option_file grade_letters args "t" n
  end.
Definition reads (j : job) (n : string) : Prop :=
  match j with
  | Avg args => option_file avg_letters args "i" n
  | Pack args => option_file pack_letters args "i" n
  | Gen args => False
  | Grade args => option_file grade_letters args "i" n
  end.
(** No file that one of them writes is used by the other. *)
Definition separate (i j : job) : Prop :=
  (forall n, writes i n -> ~ writes j n /\ ~ reads j n) /\ (forall n, writes j n -> ~ writes i n /\ ~ reads i n).

Section Jobs.
Context {DB : Type}.
Variables (EQ : env DB) (E : etree) (opens : disk -> string -> bool) (F : numfmt) (X : QueryApp.texts) (L : libm)
  (T : GridIngester.texts) (G : gstore (list (addr * payload)) payload) (fs : files).
(** The job on a machine of its own, as in SmallApps.v *)
Definition main_of (j : job) (d : disk) : disk * outcome (Z * list said) :=
  match j with
  | Avg args => avgMain E args d
  | Pack args => packMain E X args d
  | Gen args => genMain E F X L T args d
  | Grade args => gradeMain EQ E F X L T opens G args fs d
  end.
(** Its calls *)
Definition calls_of (j : job) : prog (Z * list said) :=
  match j with
  | Avg args => avgMainS E args
  | Pack args => packMainS E X args
  | Gen args => genMainS E F X L T args
  | Grade args => gradeMainS EQ E F X L T G args fs
  end.
End Jobs.
(** It does not write the database that it reads. *)
Definition distinct_files (j : job) : Prop := forall n, reads j n -> ~ writes j n.
