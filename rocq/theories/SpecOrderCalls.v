(** Which calls on a query object can be made in another order. *)
From Coq Require Import ZArith Bool String List Permutation.
From Verif Require Import Outcome Float Payload Geom ErrorHandler VMQuery SpecQuery SpecHist SpecSame.
Import ListNotations.
Open Scope Z_scope. Open Scope list_scope.

(** The parts of a query object as its user knows them. *)
Inductive part :=
| Name | NameExt | Cache | CacheExt   (* what to open, and with how much memory *)
| Res | Kind | Values | Squashing | Place   (* how to answer *)
| Opened   (* the open databases *)
| Report   (* status, message and log *).

(** The parts that a call may change.  Null pointers are fatal: such calls count as
    changing everything. *)
Definition changes (a : action) (p : part) : Prop :=
  match a with
  | AFilename _ => p = Name | AFilenameExt _ => p = NameExt | ACacheSize _ => p = Cache | ACacheSizeExt _ => p = CacheExt
  | AQueryRes _ => p = Res | ASquash _ _ => p = Squashing
  | AQueryType n => p = if (0 <=? n) && (n <=? 2) then Kind else Report
  | AQueryVals (Some l) => p = Values \/ p = Report /\ Exists (fun s => forall v, ~ names_value s v) l
  | AGeometry (Some _) => p = Place
  | AOpen | AClose => p = Opened \/ p = Report
  | AHandler _ | AQuery _ _ _ _ => p = Report
  | AQueryVals None | AGeometry None => True
  end.
(** The parts that it depends on.  (The message about a database that cannot be closed
    has the name in it.) *)
Definition depends (a : action) (p : part) : Prop :=
  match a with
  | AOpen => p = Name \/ p = NameExt \/ p = Cache \/ p = CacheExt \/ p = Opened
  | AClose => p = Name \/ p = Opened
  | AHandler _ => p = Report
  | AQuery _ _ _ _ => p = Res \/ p = Kind \/ p = Values \/ p = Squashing \/ p = Place \/ p = Opened \/ p = Report
  | _ => False
  end.
(** Two calls have nothing to do with each other. *)
Definition unrelated (a b : action) : Prop := forall p,
  (changes a p -> ~ changes b p /\ ~ depends b p) /\ (changes b p -> ~ depends a p).

(** The same calls, but unrelated ones in another order. *)
Inductive rearranged : list action -> list action -> Prop :=
| as_it_was l : rearranged l l
| exchanged before a b after : unrelated a b -> rearranged (before ++ a :: b :: after) (before ++ b :: a :: after)
| once_more l1 l2 l3 : rearranged l1 l2 -> rearranged l2 l3 -> rearranged l1 l3.

(** Everything seen while a program calls a new query object: of each query the values,
    the status and the message; at the end the status, the message and the files. *)
Definition observe {DB} (E : env DB) (s : qstate DB * files) (a : action)
  : outcome (qstate DB * files * list (list f64 * status * string)) :=
  match a with
  | AQuery vals lon lat elev =>
      let* (q, fs, vs) := query E (fst s) (snd s) vals lon lat elev in
      Val (q, fs, [(vs, eh_status (q_err q), eh_msg (q_err q))])
  | _ => let* (q, fs) := step s (done_in E a) in Val (q, fs, [])
  end.
Fixpoint observes {DB} (E : env DB) (s : qstate DB * files) (l : list action)
  : outcome (qstate DB * files * list (list f64 * status * string)) :=
  match l with
  | [] => Val (fst s, snd s, [])
  | a :: l => let* (q, fs, r) := observe E s a in let* (q, fs, rs) := observes E (q, fs) l in Val (q, fs, r ++ rs)
  end.
Definition seen {DB} (E : env DB) (g : libm) (fs : files) (l : list action)
  : outcome (list (list f64 * status * string) * status * string * files) :=
  let* (q, fs, rs) := observes E (q_new g, fs) l in Val (rs, eh_status (q_err q), eh_msg (q_err q), fs).
