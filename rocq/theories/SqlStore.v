(** Values in SQLite columns: osp/core/ontology/datatypes.py (conversions),
    osp/wrappers/sqlite/sqlite_session.py (types of the columns), and the storage rules of
    SQLite (https://sqlite.org/datatype3.html), which are part of the specification. *)
From Coq Require Import String List NArith ZArith Lia Bool.
From Verif Require Import Prelude Utf8 Text Datatype SqlUtil SqlText Validator.
Import ListNotations.
Local Open Scope list_scope.

(** ** Specification: SQLite *)

(** The type affinity of a column with declared type [ty] (upper case), section 3.1. *)
Inductive affinity := AInteger | AText | ABlob | AReal | ANumeric.
Fixpoint occurs (w s : str) : bool :=
  startswith w s || match s with [] => false | _ :: s' => occurs w s' end.
Definition affinity_of (ty : str) : affinity :=
  if occurs (lit "INT") ty then AInteger
  else if occurs (lit "CHAR") ty || occurs (lit "CLOB") ty || occurs (lit "TEXT") ty then AText
  else if occurs (lit "BLOB") ty || match ty with [] => true | _ => false end then ABlob
  else if occurs (lit "REAL") ty || occurs (lit "FLOA") ty || occurs (lit "DOUB") ty then AReal
  else ANumeric.

(** Texts that SQLite converts to a number: blanks, sign, digits with an optional
    fraction, an optional exponent, blanks. *)
Definition opt (r : re) : re := Alt Eps r.
Definition dig : re := Chr is_digit.
Definition digs : re := Seq dig (Star dig).
Definition blank : re := Star (Chr (fun c => existsb (N.eqb c) [32; 9; 10; 11; 12; 13]%N)).
Definition sign : re := opt (Chr (fun c => existsb (N.eqb c) [43; 45]%N)).
Definition one (n : N) : re := Chr (N.eqb n).
Definition number_re : re :=
  Seq blank (Seq sign (Seq
    (Alt (Seq digs (opt (Seq (one 46) (Star dig)))) (Seq (one 46) digs))
    (Seq (opt (Seq (Chr (fun c => (c =? 101) || (c =? 69))%N) (Seq sign digs))) blank))).
Definition numeric (s : str) : bool := re_full number_re s.

Section Store.
  (** Floating point numbers: the number with the value of an integer, of a numeric text;
      NaN; [int(f)], [bool(f)], [str(f)], [float(s)] of Python; the integer with the
      value of [f], if any. *)
  Context (F : Type) (f_of_Z : Z -> F) (f_of_text : str -> F) (is_nan : F -> bool)
          (truncate : F -> Z) (is_zero : F -> bool) (show : F -> str) (parse : str -> option F)
          (integral : F -> option Z).

  Inductive sval := SNull | SInt (z : Z) | SReal (f : F) | SText (s : str).

  (** What is stored when a value is written to a column with the affinity (sections 3,
      3.3; a text in a numeric column becomes a number if it is one). *)
  Definition apply_affinity (a : affinity) (v : sval) : sval :=
    match a, v with
    | AText, SInt z => SText (decZ z)
    | AText, SReal f => SText (show f)
    | AReal, SInt z => SReal (f_of_Z z)
    | AReal, SText s => if numeric s then SReal (f_of_text s) else v
    | (AInteger | ANumeric), SText s =>
        if numeric s then match integral (f_of_text s) with Some z => SInt z | None => SReal (f_of_text s) end
        else v
    | (AInteger | ANumeric), SReal f => match integral f with Some z => SInt z | None => v end
    | _, _ => v
    end.

  (** ** The model *)

  (** Python values *)
  Inductive pyval := PNone | PBool (b : bool) | PInt (z : Z) | PFloat (f : F) | PStr (s : str).

  (** The binding of a parameter by the sqlite3 module; an integer beyond 64 bits raises
      OverflowError (here: ValueError). *)
  Definition bind_value (v : pyval) : res sval :=
    match v with
    | PNone => Ok SNull
    | PBool b => Ok (SInt (if b then 1 else 0))
    | PInt z => if ((- 2 ^ 63 <=? z) && (z <? 2 ^ 63))%Z then Ok (SInt z) else Err ValueError
    | PFloat f => Ok (if is_nan f then SNull else SReal f)
    | PStr s => Ok (SText s)
    end.
  (** The value of a column in a fetched row. *)
  Definition fetch (v : sval) : pyval :=
    match v with SNull => PNone | SInt z => PInt z | SReal f => PFloat f | SText s => PStr s end.

  (** [bool(x)], [int(x)], [float(x)], [str(x)]; [to_uuid] keeps a string (C02 covers the
      parsing of uids). *)
  Definition conv (b : basic) (v : pyval) : res pyval :=
    match b, v with
    | BOOL, PNone => Ok (PBool false)
    | BOOL, PBool b => Ok v
    | BOOL, PInt z => Ok (PBool (negb (z =? 0)%Z))
    | BOOL, PFloat f => Ok (PBool (negb (is_zero f)))
    | BOOL, PStr s => Ok (PBool (match s with [] => false | _ => true end))
    | INT, PBool b => Ok (PInt (if b then 1 else 0))
    | INT, PInt z => Ok v
    | INT, PFloat f => Ok (PInt (truncate f))
    | INT, PStr s => rmap PInt (int_of_str s)
    | INT, PNone => Err TypeError
    | FLOAT, PBool b => Ok (PFloat (f_of_Z (if b then 1 else 0)))
    | FLOAT, PInt z => Ok (PFloat (f_of_Z z))
    | FLOAT, PFloat f => Ok v
    | FLOAT, PStr s => match parse s with Some f => Ok (PFloat f) | None => Err ValueError end
    | FLOAT, PNone => Err TypeError
    | STRING, PNone => Ok (PStr (lit "None"))
    | STRING, PBool b => Ok (PStr (if b then lit "True" else lit "False"))
    | STRING, PInt z => Ok (PStr (decZ z))
    | STRING, PFloat f => Ok (PStr (show f))
    | STRING, PStr s => Ok v
    | UUID, PStr s => Ok v
    | UUID, _ => Err ValueError
    end.
  Definition str_of (v : pyval) : str :=
    match v with
    | PNone => lit "None"
    | PBool b => if b then lit "True" else lit "False"
    | PInt z => decZ z
    | PFloat f => show f
    | PStr s => s
    end.

  (** A scalar value [v] of datatype [dt] is written to its column: [convert_from] and the
      binding (sql_wrapper_session.py:518-526, sqlite_session.py:124-133); the column has
      the type [to_sqlite_datatype dt] (sqlite_session.py:92-97, 220-247). *)
  Definition write (dt : option str) (v : pyval) : res sval :=
    match to_sqlite_datatype dt with
    | Err e => Err e
    | Ok ty =>
        match convert_from conv (Leaf v) dt with
        | Ok (Leaf w) => rmap (apply_affinity (affinity_of ty)) (bind_value w)
        | Ok (Nest _) => Err TypeError
        | Err e => Err e
        end
    end.
  (** And read: [convert_values] (sql_util.py:447-463). *)
  Definition read_back (dt : option str) (v : sval) : res pyval :=
    match convert_to conv str_of PStr (Leaf (fetch v)) dt with
    | Ok (Leaf w) => Ok w
    | Ok (Nest _) => Err TypeError
    | Err e => Err e
    end.
  Definition write_and_read (dt : option str) (v : pyval) : res pyval :=
    match write dt v with Ok x => read_back dt x | Err e => Err e end.

  (** A comparison "column = parameter" (section 4.2): numeric affinity of the column is
      applied to a text parameter, text affinity to a number. *)
  Context (same_float : F -> F -> bool).
  Definition same_stored (a b : sval) : bool :=
    match a, b with
    | SInt x, SInt y => Z.eqb x y
    | SReal x, SReal y => same_float x y
    | SInt x, SReal y | SReal y, SInt x => same_float (f_of_Z x) y
    | SText x, SText y => str_eqb x y
    | _, _ => false
    end.
  (** Whether a row with the value [v] is found by EqualsCondition with the value [w]. *)
  Definition found (dt : option str) (v w : pyval) : res bool :=
    match to_sqlite_datatype dt, write dt v, convert_from conv (Leaf w) dt with
    | Ok ty, Ok x, Ok (Leaf w') => rmap (fun p => same_stored x (apply_affinity (affinity_of ty) p)) (bind_value w')
    | Err e, _, _ | _, Err e, _ | _, _, Err e => Err e
    | _, _, Ok (Nest _) => Err TypeError
    end.
End Store.
Arguments PNone {F}.
Arguments PBool {F}.
Arguments PInt {F}.
Arguments PStr {F}.
Arguments SNull {F}.
Arguments SInt {F}.
Arguments SText {F}.
Arguments PFloat {F}.
Arguments SReal {F}.
