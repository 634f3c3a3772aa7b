(** Model of the averaging driver, libsrc/cencalvm/average/Averager.{h,icc,cc}. *)
From Coq Require Import ZArith Bool String List Decimal DecimalString.
From Verif Require Import Outcome Payload Addr AvgEngine Store.
Import ListNotations.
Open Scope Z_scope.

(** std::ostream << int *)
Definition showZ (z : Z) : string := NilZero.string_of_int (Z.to_int z).
Definition nl : string := String (Ascii.ascii_of_nat 10) EmptyString.

(** The records of the output file (a record that was appended but never updated
    has unspecified values; [junk] stands for them). *)
Definition file_recs (junk : payload) (db : list orec) : list (addr * payload) :=
  map (fun r => (o_addr r, match o_pay r with Some p => p | None => junk end)) db.
Definition junk0 : payload :=
  mkPayload NODATAVAL NODATAVAL NODATAVAL NODATAVAL NODATAVAL NODATAVAL 0 0.

(** Averager.cc:117-125 description of the output *)
Definition averagedMeta (E : etree) (m : string) : string :=
  (m ++ nl ++ "spatially averaged on: " ++ et_now E ++ "host: " ++ et_host E)%string.

(** Averager.cc:57-135 average.  The value returned stands for the report that
    printOctantInfo writes on standard output unless the object is quiet (the text is
    in Report.v).
    The results of the two etree_close calls (133-134) are ignored.
    Simplification: the header of the input (payload size, schema, metadata) is
    the one read when it was opened. *)
Definition average (E : etree) (fin fout : string) : io counters :=
  do* f := openRead E fin
    ("Could not open etree database '" ++ fin ++ "' for averaging.") in
  if negb (d_size f =? PAYLOADSIZE) then
    throw ("Payload size of input etree database '" ++ fin ++
      "' doesn't match the expected payload size." ++ nl ++
      "Expected payload size is " ++ showZ PAYLOADSIZE ++
      ", and database payload size is " ++ showZ (d_size f) ++ ".")
  else
  match d_schema f with
  | None => lift (UB "strcmp of a null schema")
  | Some s =>
    if negb (String.eqb s SCHEMA) then
      throw ("Schema of input etree database '" ++ fin ++
        "' doesn't match the expected schema." ++ nl ++
        "Expected schema is" ++ nl ++ "'" ++ SCHEMA ++
        "'" ++ nl ++ "and database schema is" ++ nl ++ "'" ++ s ++ "'")
    else
    do* _ := openNew E fout ("Could not open etree database '" ++ fout ++
                             "' for output of averaged etree database .") in
    do* _ := registerSchema E fout in
    do* _ := match d_meta f with
             | Some m => setAppMeta E fout (averagedMeta E m)
             | None => ret tt
             end in
    let recs := if String.eqb fin fout then et_stale E else d_recs f in
    let R := mkReading (et_cursor E fin) (et_get E fin) (et_adv E fin) in
    match fillFrom (et_store E) R recs with
    | Val s =>
        do* _ := write fout (fun g => set_recs g
          (if et_flush E fout then file_recs junk0 (e_db s) else et_partial E)) in
        ret (e_cnt s)
    | Throw m => do* _ := write fout (fun g => set_recs g (et_partial E)) in throw m
    | Abort => lift Abort
    | UB w => lift (UB w)
    end
  end%string.
