(** Specification for C67: how an SQL database reads a statement text, and what the
    statement does.  Independent of the code of osp-core: a fragment of the grammar of
    SQLite (https://sqlite.org/lang.html) with names in backquotes, named parameters and
    conditions that are conjunctions of equalities. *)
From Coq Require Import String List NArith Lia Bool.
From Verif Require Import Prelude Utf8 Text.
Import ListNotations.
Local Open Scope list_scope.

(** ** Tokens *)

Inductive token :=
| TWord (w : str)          (* keyword, upper case *)
| TNum (w : str)
| TName (s : str)          (* `s` *)
| TParam (p : str)         (* :p *)
| TSym (c : N).

Definition letter (c : N) : bool :=
  ((65 <=? c) && (c <=? 90) || (97 <=? c) && (c <=? 122) || (c =? 95))%N.
Definition wordchar (c : N) : bool := letter c || is_digit c.
Definition up (c : N) : N := if ((97 <=? c) && (c <=? 122))%N then (c - 32)%N else c.
Definition space (c : N) : bool := existsb (N.eqb c) [32; 9; 10; 12; 13]%N.
Definition symbol (c : N) : bool :=
  existsb (N.eqb c) [44; 46; 40; 41; 61; 59; 42]%N.      (* , . ( ) = ; * *)

Inductive lstate :=
| Top
| InWord (w : str)         (* characters read so far, reversed *)
| InNum (w : str)
| InParam (w : str)
| InName (w : str)
| AfterQuote (w : str)     (* a backquote inside a name: its end, or the first of two *)
| Dash
| Comment.

(** A character at the beginning of a token.  None: not in the fragment. *)
Definition start (c : N) : option (list token * lstate) :=
  if space c then Some ([], Top)
  else if (c =? 96)%N then Some ([], InName [])
  else if (c =? 58)%N then Some ([], InParam [])
  else if letter c then Some ([], InWord [c])
  else if is_digit c then Some ([], InNum [c])
  else if (c =? 45)%N then Some ([], Dash)
  else if symbol c then Some ([TSym c], Top)
  else None.

Definition after_token (t : token) (c : N) : option (list token * lstate) :=
  match start c with Some (ts, st) => Some (t :: ts, st) | None => None end.

Definition lstep (st : lstate) (c : N) : option (list token * lstate) :=
  if (c =? 0)%N then None                                    (* end of a C string *)
  else match st with
  | Top => start c
  | InWord w => if wordchar c then Some ([], InWord (c :: w))
                else after_token (TWord (map up (rev w))) c
  | InNum w => if wordchar c then Some ([], InNum (c :: w)) else after_token (TNum (rev w)) c
  | InParam w => if wordchar c then Some ([], InParam (c :: w)) else after_token (TParam (rev w)) c
  | InName w => if (c =? 96)%N then Some ([], AfterQuote w) else Some ([], InName (c :: w))
  | AfterQuote w => if (c =? 96)%N then Some ([], InName (c :: w))
                    else after_token (TName (rev w)) c
  | Dash => if (c =? 45)%N then Some ([], Comment) else after_token (TSym 45%N) c
  | Comment => if (c =? 10)%N then Some ([], Top) else Some ([], Comment)
  end.

Definition lfinish (st : lstate) : option (list token) :=
  match st with
  | Top | Comment => Some []
  | InWord w => Some [TWord (map up (rev w))]
  | InNum w => Some [TNum (rev w)]
  | InParam w => Some [TParam (rev w)]
  | AfterQuote w => Some [TName (rev w)]
  | Dash => Some [TSym 45%N]
  | InName _ => None                                         (* unterminated *)
  end.

Fixpoint lex (st : lstate) (s : str) : option (list token) :=
  match s with
  | [] => lfinish st
  | c :: r => match lstep st c with
              | None => None
              | Some (ts, st') => match lex st' r with
                                  | None => None
                                  | Some ts' => Some (ts ++ ts')
                                  end
              end
  end.

(** ** Statements *)

Inductive comparison :=
| Always                                                     (* 1 *)
| EqParam (t c p : str)                                      (* `t`.`c` = :p *)
| EqCol (t1 c1 t2 c2 : str).                                 (* `t1`.`c1` = `t2`.`c2` *)

Inductive item :=
| Column (c ty : str)
| PrimaryKey (cs : list str)
| ForeignKey (c t c' : str).

Inductive stmt :=
| Select (cols : list (str * str)) (from : list (str * str)) (where_ : list comparison)
                                     (* from: table, alias *)
| Insert (t : str) (cols : list str) (vals : list str)
| Update (t : str) (sets : list (str * str)) (where_ : list comparison)
| Delete (t : str) (where_ : list comparison)
| Drop (t : str)
| CreateTable (t : str) (items : list item)
| CreateIndex (i t : str) (cols : list str).

Definition parser (X : Type) := list token -> option (X * list token).
Definition seqp {X Y} (p : parser X) (f : X -> parser Y) : parser Y :=
  fun ts => match p ts with Some (x, r) => f x r | None => None end.
Definition ret {X} (x : X) : parser X := fun ts => Some (x, ts).
Notation "x <~ p ; q" := (seqp p (fun x => q)) (at level 100, p at next level, right associativity).

Definition word (w : string) : parser unit := fun ts =>
  match ts with TWord w' :: r => if str_eqb w' (lit w) then Some (tt, r) else None | _ => None end.
Fixpoint words (ws : list string) : parser unit :=
  match ws with [] => ret tt | w :: r => _ <~ word w; words r end.
Definition sym (c : N) : parser unit := fun ts =>
  match ts with TSym c' :: r => if (c' =? c)%N then Some (tt, r) else None | _ => None end.
Definition name : parser str := fun ts =>
  match ts with TName s :: r => Some (s, r) | _ => None end.
Definition param : parser str := fun ts =>
  match ts with TParam p :: r => Some (p, r) | _ => None end.

(** One or more, with a separator. *)
Fixpoint several {X} (fuel : nat) (sep : parser unit) (p : parser X) : parser (list X) := fun ts =>
  match p ts with
  | None => None
  | Some (x, r) =>
      match sep r with
      | None => Some ([x], r)
      | Some (_, r') =>
          match fuel with
          | O => None
          | S fuel' => match several fuel' sep p r' with
                       | Some (xs, r'') => Some (x :: xs, r'')
                       | None => None
                       end
          end
      end
  end.
Definition list_of {X} (p : parser X) : parser (list X) := fun ts => several (List.length ts) (sym 44) p ts.
Definition colref : parser (str * str) := t <~ name; _ <~ sym 46; c <~ name; ret (t, c).
Definition compare : parser comparison := fun ts =>
  match ts with
  | TNum w :: r => if str_eqb w (lit "1") then Some (Always, r) else None
  | _ => (a <~ colref; _ <~ sym 61;
          fun ts' => match ts' with
                     | TParam p :: r => Some (EqParam (fst a) (snd a) p, r)
                     | _ => (b <~ colref; ret (EqCol (fst a) (snd a) (fst b) (snd b))) ts'
                     end) ts
  end.
Definition condition : parser (list comparison) := fun ts =>
  several (List.length ts) (word "AND") compare ts.
Definition parens {X} (p : parser X) : parser X := _ <~ sym 40; x <~ p; _ <~ sym 41; ret x.
Definition from_item : parser (str * str) := t <~ name; _ <~ word "AS"; a <~ name; ret (t, a).
Definition set_item : parser (str * str) := c <~ name; _ <~ sym 61; p <~ param; ret (c, p).
Definition create_item : parser item := fun ts =>
  match ts with
  | TName _ :: _ => (c <~ name; ty <~ name; ret (Column c ty)) ts
  | TWord w :: _ =>
      if str_eqb w (lit "PRIMARY")
      then (_ <~ words ["PRIMARY"; "KEY"]%string; cs <~ parens (list_of name); ret (PrimaryKey cs)) ts
      else (_ <~ words ["FOREIGN"; "KEY"]%string; c <~ parens name; _ <~ word "REFERENCES";
            t <~ name; c' <~ parens name; ret (ForeignKey c t c')) ts
  | _ => None
  end.

Definition statement : parser stmt := fun ts =>
  match ts with
  | TWord w :: _ =>
      if str_eqb w (lit "SELECT") then
        (_ <~ word "SELECT"; cs <~ list_of colref; _ <~ word "FROM"; fs <~ list_of from_item;
         _ <~ word "WHERE"; w <~ condition; ret (Select cs fs w)) ts
      else if str_eqb w (lit "INSERT") then
        (_ <~ words ["INSERT"; "INTO"]%string; t <~ name; cs <~ parens (list_of name);
         _ <~ word "VALUES"; ps <~ parens (list_of param); ret (Insert t cs ps)) ts
      else if str_eqb w (lit "UPDATE") then
        (_ <~ word "UPDATE"; t <~ name; _ <~ word "SET"; ss <~ list_of set_item;
         _ <~ word "WHERE"; w <~ condition; ret (Update t ss w)) ts
      else if str_eqb w (lit "DELETE") then
        (_ <~ words ["DELETE"; "FROM"]%string; t <~ name; _ <~ word "WHERE"; w <~ condition;
         ret (Delete t w)) ts
      else if str_eqb w (lit "DROP") then
        (_ <~ words ["DROP"; "TABLE"; "IF"; "EXISTS"]%string; t <~ name; ret (Drop t)) ts
      else
        (_ <~ word "CREATE"; fun ts' =>
           match ts' with
           | TWord w :: _ =>
               if str_eqb w (lit "TABLE") then
                 (_ <~ words ["TABLE"; "IF"; "NOT"; "EXISTS"]%string; t <~ name;
                  is <~ parens (list_of create_item); ret (CreateTable t is)) ts'
               else
                 (_ <~ words ["INDEX"; "IF"; "NOT"; "EXISTS"]%string; i <~ name; _ <~ word "ON";
                  t <~ name; cs <~ parens (list_of name); ret (CreateIndex i t cs)) ts'
           | _ => None
           end) ts
  | _ => None
  end.

(** The text is one statement, with or without a final semicolon. *)
Definition read (s : str) : option stmt :=
  match lex Top s with
  | None => None
  | Some ts => match statement ts with
               | Some (x, []) => Some x
               | Some (x, [TSym c]) => if (c =? 59)%N then Some x else None
               | _ => None
               end
  end.

(** ** What a statement does *)

Section Run.
  Context {V : Type}.
  (** NULL; the database's comparison; the values bound to the parameters. *)
  Context (null : V) (same : V -> V -> bool).

  Definition row := str -> V.
  Record table := Table { tcols : list str; trows : list row }.
  Definition database := str -> option table.
  Definition dbset (db : database) (t : str) (x : option table) : database :=
    fun t' => if str_eqb t' t then x else db t'.

  (** The constraints of the database on new rows (keys, generated values): the row
      that is stored, or None if a row with the same key exists. *)
  Context (admit_row : str -> list row -> row -> option row).

  (** Rows of a join: the value of each column of each alias. *)
  Definition env := str -> str -> V.
  Definition bind_row (a : str) (x : row) (e : env) : env :=
    fun a' c => if str_eqb a' a then x c else e a' c.
  Fixpoint product (from : list (str * list row)) : list env :=
    match from with
    | [] => [fun _ _ => null]
    | (a, rows) :: rest => flat_map (fun x => map (bind_row a x) (product rest)) rows
    end.

  Definition holds_in (bind : str -> option V) (e : env) (x : comparison) : bool :=
    match x with
    | Always => true
    | EqParam t c p => match bind p with Some v => same (e t c) v | None => false end
    | EqCol t1 c1 t2 c2 => same (e t1 c1) (e t2 c2)
    end.

  (** Names are resolved before a statement runs. *)
  Definition in_list (s : str) (l : list str) : bool := existsb (str_eqb s) l.
  Definition knows (scope : list (str * table)) (t c : str) : bool :=
    existsb (fun '(a, x) => str_eqb t a && in_list c (tcols x)) scope.
  Definition well_scoped (bind : str -> option V) (scope : list (str * table)) (x : comparison) : bool :=
    match x with
    | Always => true
    | EqParam t c p => knows scope t c && match bind p with Some _ => true | None => false end
    | EqCol t1 c1 t2 c2 => knows scope t1 c1 && knows scope t2 c2
    end.

  Fixpoint find_tables (db : database) (from : list (str * str)) : option (list (str * table)) :=
    match from with
    | [] => Some []
    | (t, a) :: r => match db t, find_tables db r with
                     | Some x, Some xs => Some ((a, x) :: xs)
                     | _, _ => None
                     end
    end.
  Fixpoint bound (bind : str -> option V) (ps : list str) : option (list V) :=
    match ps with
    | [] => Some []
    | p :: r => match bind p, bound bind r with
                | Some v, Some vs => Some (v :: vs)
                | _, _ => None
                end
    end.
  (** The row [old] with the columns [cs] set to the values [vs]. *)
  Fixpoint set_columns (cs : list str) (vs : list V) (old : row) : row :=
    match cs, vs with
    | c :: cs', v :: vs' => fun c' => if str_eqb c' c then v else set_columns cs' vs' old c'
    | _, _ => old
    end.
  Fixpoint distinct (l : list str) : bool :=
    match l with [] => true | x :: r => negb (in_list x r) && distinct r end.
  Definition columns_of (is : list item) : list str :=
    flat_map (fun i => match i with Column c _ => [c] | _ => [] end) is.
  Definition item_ok (cs : list str) (i : item) : bool :=
    match i with
    | Column _ _ => true
    | PrimaryKey ks => forallb (fun k => in_list k cs) ks
    | ForeignKey c _ _ => in_list c cs
    end.

  (** None: the database rejects the statement.  Otherwise the database afterwards and
      the rows returned.  (Uniqueness and foreign keys are left to [admit_row]; None of
      it: rejected with a uniqueness error, which is [UniqueError].) *)
  Inductive answer := Done (db : database) (rows : list (list V)) | UniqueError.

  Definition run (bind : str -> option V) (x : stmt) (db : database) : option answer :=
    match x with
    | Select cs from w =>
        match find_tables db from with
        | None => None
        | Some scope =>
            if distinct (map snd from) && forallb (fun '(t, c) => knows scope t c) cs
               && forallb (well_scoped bind scope) w
            then Some (Done db (map (fun e => map (fun '(t, c) => e t c) cs)
                         (filter (fun e => forallb (holds_in bind e) w)
                           (product (map (fun '(a, x) => (a, trows x)) scope)))))
            else None
        end
    | Insert t cs ps =>
        match db t, bound bind ps with
        | Some x, Some vs =>
            if forallb (fun c => in_list c (tcols x)) cs && Nat.eqb (List.length cs) (List.length vs)
            then match admit_row t (trows x) (set_columns cs vs (fun _ => null)) with
                 | Some r => Some (Done (dbset db t (Some (Table (tcols x) (trows x ++ [r])))) [])
                 | None => Some UniqueError
                 end
            else None
        | _, _ => None
        end
    | Update t ss w =>
        match db t, bound bind (map snd ss) with
        | Some x, Some vs =>
            if forallb (fun c => in_list c (tcols x)) (map fst ss)
               && forallb (well_scoped bind [(t, x)]) w
            then Some (Done (dbset db t (Some (Table (tcols x)
                   (map (fun r => if forallb (holds_in bind (bind_row t r (fun _ _ => null))) w
                                  then set_columns (map fst ss) vs r else r) (trows x))))) [])
            else None
        | _, _ => None
        end
    | Delete t w =>
        match db t with
        | Some x =>
            if forallb (well_scoped bind [(t, x)]) w
            then Some (Done (dbset db t (Some (Table (tcols x)
                   (filter (fun r => negb (forallb (holds_in bind (bind_row t r (fun _ _ => null))) w))
                           (trows x))))) [])
            else None
        | None => None
        end
    | Drop t => Some (Done (dbset db t None) [])
    | CreateTable t is =>
        let cs := columns_of is in
        match db t with
        | Some _ => Some (Done db [])
        | None => if distinct cs && forallb (item_ok cs) is
                  then Some (Done (dbset db t (Some (Table cs []))) [])
                  else None
        end
    | CreateIndex i t cs =>
        match db t with
        | Some x => if forallb (fun c => in_list c (tcols x)) cs then Some (Done db []) else None
        | None => None
        end
    end.

  (** [cursor.execute(text, parameters)] *)
  Definition execute (s : str) (bind : str -> option V) (db : database) : option answer :=
    match read s with Some x => run bind x db | None => None end.
End Run.
Arguments table : clear implicits.
Arguments database : clear implicits.
Arguments answer : clear implicits.
Arguments env : clear implicits.
Arguments row : clear implicits.
