(** How SQL reads and evaluates a condition: the words in which the theorems about SqlExpr.v are
    stated. *)
From Verif Require Import Py Iso OdExpr OdEval OdEvalSpec SqlExpr.
Open Scope Z_scope.
Open Scope list_scope.

(** ** The tokens of SQL *)
Inductive tok : Type :=
| KId (name : str)      (* an identifier in double quotes *)
| KWord (w : str)       (* a word without quotes *)
| KStr (s : str)        (* a string *)
| KMark                 (* the place of a parameter *)
| KOp (s : str)
| KOpen | KClose | KComma | KDot
| KBad.                 (* not SQL *)
Definition between (lo hi c : Z) : bool := (lo <=? c) && (c <=? hi).
Definition letter (c : Z) : bool := between 65 90 c || between 97 122 c || (c =? 95).
Definition word_char (c : Z) : bool := letter c || between 48 57 c.
(** = < > + - * / | *)
Definition op_char (c : Z) : bool := existsb (Z.eqb c) [61; 60; 62; 43; 45; 42; 47; 124].
Inductive lstate := L0 | LWord (acc : str) | LOp (acc : str) | LId (acc : str) | LIdEnd (acc : str) | LStr (acc : str) | LStrEnd (acc : str).
(** a character after the end of a token *)
Definition start (c : Z) : list tok * lstate :=
  if c =? 32 then ([], L0)
  else if c =? 34 then ([], LId [])
  else if c =? 39 then ([], LStr [])
  else if c =? 63 then ([KMark], L0)
  else if c =? 40 then ([KOpen], L0)
  else if c =? 41 then ([KClose], L0)
  else if c =? 44 then ([KComma], L0)
  else if c =? 46 then ([KDot], L0)
  else if letter c then ([], LWord [c])
  else if op_char c then ([], LOp [c])
  else ([KBad], L0).
Definition after (t : tok) (c : Z) : list tok * lstate := let '(l, st) := start c in (t :: l, st).
(** words and operators are as long as possible; a quotation mark that is doubled stands for itself *)
Definition lex_step (st : lstate) (c : Z) : list tok * lstate :=
  match st with
  | L0 => start c
  | LWord acc => if word_char c then ([], LWord (acc ++ [c])) else after (KWord acc) c
  | LOp acc => if op_char c then ([], LOp (acc ++ [c])) else after (KOp acc) c
  | LId acc => if c =? 34 then ([], LIdEnd acc) else ([], LId (acc ++ [c]))
  | LIdEnd acc => if c =? 34 then ([], LId (acc ++ [c])) else after (KId acc) c
  | LStr acc => if c =? 39 then ([], LStrEnd acc) else ([], LStr (acc ++ [c]))
  | LStrEnd acc => if c =? 39 then ([], LStr (acc ++ [c])) else after (KStr acc) c
  end.
Fixpoint lex_run (st : lstate) (s : str) : list tok * lstate :=
  match s with
  | [] => ([], st)
  | c :: s' => let '(a, st1) := lex_step st c in let '(b, st2) := lex_run st1 s' in (a ++ b, st2)
  end.
Definition lex_end (st : lstate) : list tok :=
  match st with
  | L0 => [] | LWord acc => [KWord acc] | LOp acc => [KOp acc] | LIdEnd acc => [KId acc] | LStrEnd acc => [KStr acc]
  | LId _ | LStr _ => [KBad]
  end.
Definition lex (s : str) : list tok := let '(l, st) := lex_run L0 s in l ++ lex_end st.

(** ** The trees of SQL *)
Inductive bop : Set := BOr | BAnd | BEq | BNe | BLt | BGt | BLe | BGe | BLike | BPlus | BMinus | BTimes | BDivide | BConcat.
Inductive sql : Type :=
| SCol (path : list str)
| SName (w : str)
| SMark (k : nat)             (* the parameter number k *)
| SStr (s : str)
| SBin (o : bop) (a b : sql)
| SFun (f : str) (a : sql)
| SFun2 (f : str) (a b : sql)
| SExtract (field : str) (a : sql)
| SPosition (a b : sql)
| SCast (a : sql) (type : str).
Definition op_words : list (bop * tok) :=
  [(BOr, KWord (lit "OR")); (BAnd, KWord (lit "AND")); (BLike, KWord (lit "LIKE")); (BEq, KOp (lit "=")); (BNe, KOp (lit "<>"));
   (BLt, KOp (lit "<")); (BGt, KOp (lit ">")); (BLe, KOp (lit "<=")); (BGe, KOp (lit ">=")); (BPlus, KOp (lit "+"));
   (BMinus, KOp (lit "-")); (BTimes, KOp (lit "*")); (BDivide, KOp (lit "/")); (BConcat, KOp (lit "||"))].
Definition tok_eqb (a b : tok) : bool :=
  match a, b with
  | KWord s, KWord t | KOp s, KOp t => str_eqb s t
  | _, _ => false
  end.
Definition as_op (t : tok) : option bop :=
  match find (fun p => tok_eqb (snd p) t) op_words with Some p => Some (fst p) | None => None end.

(** *** Reading: an operator that binds more strongly takes its operands first, operators of the
    same strength are taken from the left *)
Section Read.
Variable strength : bop -> nat.
(** a tree, the number of the next parameter and the tokens that follow *)
Definition reading : Type := option (sql * nat * list tok).
Definition is_word (w : string) (t : tok) : bool := tok_eqb (KWord (lit w)) t.
(** [expr f p]: an operand of an operator with strength less than [p];
    [loop f p a]: what follows the operand [a]; [f] is fuel *)
Fixpoint r_expr (f : nat) (p k : nat) (ts : list tok) {struct f} : reading :=
  match f with
  | O => None
  | S f => match r_atom f k ts with Some (a, k, ts) => r_loop f p a k ts | None => None end
  end
with r_loop (f : nat) (p : nat) (a : sql) (k : nat) (ts : list tok) {struct f} : reading :=
  match f with
  | O => None
  | S f =>
      match ts with
      | t :: ts' =>
          match as_op t with
          | Some o =>
              if (p <=? strength o)%nat then
                match r_expr f (S (strength o)) k ts' with
                | Some (b, k, ts) => r_loop f p (SBin o a b) k ts
                | None => None
                end
              else Some (a, k, ts)
          | None => Some (a, k, ts)
          end
      | [] => Some (a, k, ts)
      end
  end
with r_atom (f : nat) (k : nat) (ts : list tok) {struct f} : reading :=
  match f with
  | O => None
  | S f =>
      match ts with
      | KMark :: ts => Some (SMark k, S k, ts)
      | KStr s :: ts => Some (SStr s, k, ts)
      | KId a :: KDot :: KId b :: ts => Some (SCol [a; b], k, ts)
      | KId a :: ts => Some (SCol [a], k, ts)
      | KOpen :: ts => match r_expr f 0 k ts with Some (a, k, KClose :: ts) => Some (a, k, ts) | _ => None end
      | KWord w :: KOpen :: ts =>
          if str_eqb w (lit "EXTRACT") then
            match ts with
            | KWord u :: v :: ts =>
                if is_word "FROM" v then
                  match r_expr f 0 k ts with Some (a, k, KClose :: ts) => Some (SExtract u a, k, ts) | _ => None end
                else None
            | _ => None
            end
          else
            match r_expr f 0 k ts with
            | Some (a, k, KClose :: ts) => Some (SFun w a, k, ts)
            | Some (a, k, KComma :: ts) =>
                match r_expr f 0 k ts with Some (b, k, KClose :: ts) => Some (SFun2 w a b, k, ts) | _ => None end
            | Some (a, k, v :: ts) =>
                if str_eqb w (lit "POSITION") && is_word "IN" v then
                  match r_expr f 0 k ts with Some (b, k, KClose :: ts) => Some (SPosition a b, k, ts) | _ => None end
                else if str_eqb w (lit "CAST") && is_word "AS" v then
                  match ts with KWord t :: KClose :: ts => Some (SCast a t, k, ts) | _ => None end
                else None
            | _ => None
            end
      | KWord w :: ts => Some (SName w, k, ts)
      | _ => None
      end
  end.
(** the tree of a list of tokens that is one expression *)
Definition read (ts : list tok) : option sql :=
  match r_expr (3 * length ts + 2) 0 0 ts with Some (t, _, []) => Some t | _ => None end.
Definition read_text (s : str) : option sql := read (lex s).
End Read.

(** *** Strengths.  SQLite: https://www.sqlite.org/lang_expr.html *)
Definition sqlite_strength (o : bop) : nat :=
  match o with
  | BOr => 1 | BAnd => 2
  | BEq | BNe | BLike => 3
  | BLt | BGt | BLe | BGe => 4
  | BPlus | BMinus => 5
  | BTimes | BDivide => 6
  | BConcat => 7
  end.
(** the classes of operators on whose order all databases agree *)
Definition class (o : bop) : nat :=
  match o with
  | BOr => 1 | BAnd => 2
  | BEq | BNe | BLike | BLt | BGt | BLe | BGe => 4
  | BPlus | BMinus => 5
  | BTimes | BDivide | BConcat => 6
  end.
(** operators for which [(a o b) o c] is [a o (b o c)] *)
Definition assoc (o : bop) : Prop := o = BOr \/ o = BAnd \/ o = BConcat.
(** strengths in this order, where such operators share their strength with no other *)
Definition usual (strength : bop -> nat) : Prop :=
  (forall a b, class a < class b -> strength a < strength b)%nat /\ (forall a b, assoc a -> strength b = strength a -> b = a).
(** trees that differ in the grouping of these only *)
Inductive regroup : sql -> sql -> Prop :=
| G_refl : forall t, regroup t t
| G_trans : forall a b c, regroup a b -> regroup b c -> regroup a c
| G_assoc : forall o a b c, assoc o -> regroup (SBin o (SBin o a b) c) (SBin o a (SBin o b c))
| G_bin : forall o a b a' b', regroup a a' -> regroup b b' -> regroup (SBin o a b) (SBin o a' b')
| G_fun : forall f a a', regroup a a' -> regroup (SFun f a) (SFun f a')
| G_fun2 : forall f a b a' b', regroup a a' -> regroup b b' -> regroup (SFun2 f a b) (SFun2 f a' b')
| G_extract : forall f a a', regroup a a' -> regroup (SExtract f a) (SExtract f a')
| G_position : forall a b a' b', regroup a a' -> regroup b b' -> regroup (SPosition a b) (SPosition a' b')
| G_cast : forall f a a', regroup a a' -> regroup (SCast a f) (SCast a' f).
(** [t] has no operands of the class of their operator that would need brackets: on the left one
    that binds less strongly, on the right one that does not bind more strongly and cannot be
    regrouped *)
Section Clear.
Variable strength : bop -> nat.
Definition left_clear (o : bop) (t : sql) : Prop :=
  match t with SBin o1 _ _ => class o1 = class o -> (strength o <= strength o1)%nat | _ => True end.
Definition right_clear (o : bop) (t : sql) : Prop :=
  match t with SBin o1 _ _ => class o1 = class o -> (strength o < strength o1)%nat \/ (o1 = o /\ assoc o) | _ => True end.
Fixpoint clear (t : sql) : Prop :=
  match t with
  | SBin o a b => left_clear o a /\ right_clear o b /\ clear a /\ clear b
  | SFun _ a | SExtract _ a | SCast a _ => clear a
  | SFun2 _ a b | SPosition a b => clear a /\ clear b
  | _ => True
  end.
End Clear.

(** ** What a condition should be *)
(** a name in double quotes *)
Definition quoted_as (c name : str) : Prop := c = [34] ++ name ++ [34] /\ ~ In 34 name.
Definition op_table : list (operator * bop) :=
  [(OOr, BOr); (OAnd, BAnd); (OEq, BEq); (ONe, BNe); (OLt, BLt); (OGt, BGt); (OLe, BLe); (OGe, BGe); (OAdd, BPlus); (OSub, BMinus);
   (OMul, BTimes); (ODiv, BDivide)].
(** the functions of a database that follows the standard, and of SQLite *)
Definition standard_functions : list (string * (sql -> sql)) :=
  [("tolower", SFun (lit "LOWER")); ("toupper", SFun (lit "UPPER")); ("trim", SFun (lit "TRIM")); ("length", SFun (lit "CHAR_LENGTH"));
   ("year", SExtract (lit "YEAR")); ("month", SExtract (lit "MONTH")); ("day", SExtract (lit "DAY")); ("hour", SExtract (lit "HOUR"));
   ("minute", SExtract (lit "MINUTE")); ("second", SExtract (lit "SECOND"))]%string.
Definition time_part (f : string) (a : sql) : sql := SCast (SFun2 (lit "strftime") (SStr (lit f)) a) (lit "INTEGER").
Definition sqlite_functions : list (string * (sql -> sql)) :=
  [("tolower", SFun (lit "lower")); ("toupper", SFun (lit "upper")); ("trim", SFun (lit "TRIM")); ("length", SFun (lit "length"));
   ("year", time_part "%Y"); ("month", time_part "%m"); ("day", time_part "%d"); ("hour", time_part "%H"); ("minute", time_part "%M");
   ("second", time_part "%S")]%string.
Definition any : sql := SStr (lit "%").
(** a/b/c *)
Inductive path_of : expr ext -> list str -> Prop :=
| P_one : forall n, path_of (EProp n) [n]
| P_more : forall a b l r, path_of a l -> path_of b r -> path_of (bin OMember a b) (l ++ r).
(** An expression whose operators have two operands and whose methods have as many arguments as they
    should have; [nav] are the names of navigation properties *)
Definition arities : list (string * nat) :=
  [("endswith", 2); ("indexof", 2); ("replace", 3); ("startswith", 2); ("tolower", 1); ("toupper", 1); ("trim", 1);
   ("substring", 2); ("substring", 3); ("substringof", 2); ("concat", 2); ("length", 1); ("year", 1); ("month", 1); ("day", 1); ("hour", 1);
   ("minute", 1); ("second", 1); ("round", 1); ("floor", 1); ("ceiling", 1)]%string%nat.
Inductive formed (nav : str -> Prop) : expr ext -> Prop :=
| F_literal : forall v, formed nav (ELit v)
| F_property : forall n, ~ nav n -> formed nav (EProp n)
| F_member : forall a b p, path_of (bin OMember a b) p -> formed nav (bin OMember a b)
| F_unary : forall o a, formed nav a -> formed nav (un o a)
| F_binary : forall o a b, o <> OMember -> formed nav a -> formed nav b -> formed nav (bin o a b)
| F_call : forall m l, In (m, length l) arities -> Forall (formed nav) l -> formed nav (call m l).

Section Stands.
Context {O : Type}.
Variable functions : list (string * (sql -> sql)).
(** the column of a path; the parameter for a value *)
Variable column : list str -> list str -> Prop.
Variable prepared : simple -> @sqlv O -> Prop.
Variable params : list (@sqlv O).
(** [stands t e]: [t] is the SQL for [e], and its marks stand for the literals of [e] *)
Inductive stands : sql -> expr ext -> Prop :=
| T_literal : forall k v p, prepared v p -> nth_error params k = Some p -> stands (SMark k) (ELit v)
| T_property : forall e path c, path_of e path -> column path c -> stands (SCol c) e
| T_binary : forall o q a b s t, In (o, q) op_table -> stands s a -> stands t b -> stands (SBin q s t) (bin o a b)
| T_function : forall m f a s, In (m, f) functions -> stands s a -> stands (f s) (call m [a])
| T_concat : forall a b s t, stands s a -> stands t b -> stands (SBin BConcat s t) (call "concat" [a; b])
| T_startswith : forall a b s t, stands s a -> stands t b ->
    stands (SBin BLike s (SBin BConcat t any)) (call "startswith" [a; b])
| T_endswith : forall a b s t, stands s a -> stands t b ->
    stands (SBin BLike s (SBin BConcat any t)) (call "endswith" [a; b])
| T_substringof : forall a b s t, stands s a -> stands t b ->
    stands (SBin BLike t (SBin BConcat any (SBin BConcat s any))) (call "substringof" [a; b])
| T_indexof : forall a b s t, stands s a -> stands t b -> stands (SPosition s t) (call "indexof" [a; b]).
End Stands.
(** the numbers of the marks of a tree, in order *)
Fixpoint marks (t : sql) : list nat :=
  match t with
  | SMark k => [k]
  | SBin _ a b | SFun2 _ a b | SPosition a b => marks a ++ marks b
  | SFun _ a | SExtract _ a | SCast a _ => marks a
  | _ => []
  end.
(** the column of a path: [names] gives the name of the column, [table] the name of the table if columns
    are qualified *)
Definition column_of (names : list str -> option str) (table : option str) (path c : list str) : Prop :=
  exists f name, names path = Some f /\ quoted_as f name /\
    match table with None => c = [name] | Some t => exists tn, quoted_as t tn /\ c = [tn; name] end.
(** the parameter for a value *)
Definition ints : list edm_type := [TByte; TSByte; TInt16; TInt32; TInt64].
Definition native (t : edm_type) (p : pyv) : Prop :=
  match p with PBool _ => t = TBoolean | PInt _ => In t ints | PStr _ => t = TString | _ => False end.
Inductive param_of {O : Type} (other : edm_type -> pyv -> result O) : simple -> @sqlv O -> Prop :=
| V_null : forall t, param_of other (mkV t None) VNull
| V_bool : forall b, param_of other (mkV (Some TBoolean) (Some (PBool b))) (VInt (Z.b2z b))
| V_int : forall t n, In t ints -> param_of other (mkV (Some t) (Some (PInt n))) (VInt n)
| V_text : forall s, param_of other (mkV (Some TString) (Some (PStr s))) (VText s)
| V_other : forall t p o, ~ native t p -> other t p = Ok o -> param_of other (mkV (Some t) (Some p)) (VOther o).
