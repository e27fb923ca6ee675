(** Progs.v -- the example programs example/same_fringe.cpp, example/parser.cpp,
    example/fibonacci.cpp and example/layout.cpp, written in the language of Cpp.v, and what they are meant to do.

    Texts that the examples print as labels are left out; [OEmit v] is
    [std::cout << v]. *)
From stdpp Require Import prelude gmap.
From Verif Require Import Base Cpp.

Section progs.
Context {env : Env}.

(** ** Output *)
(** The values put out by a program, oldest first. *)
Fixpoint output (h : list event) : list T :=
  match h with
  | [] => []
  | EvCall _ (NOp (OEmit v)) :: h => output h ++ [v]
  | _ :: h => output h
  end.

Definition plain_new : newp := NewP None None.

Definition emit (v : T) (k : stm) : stm := Do (OEmit v) eq_refl (fun _ => k).
Definition push (s : nat) (g : arg) (k : stm) : stm := Do (OPush s g) eq_refl (fun _ => k).

(** ** Loops over iterators *)
(** [for (; i != e; ++i) std::cout << *i;] -- std::copy to an ostream_iterator
    (example/same_fringe.cpp:100-102), and range-for (example/parser.cpp:112-114). *)
CoFixpoint each (i e : iter) (k : stm) : stm :=
  Do (OItNe i e) eq_refl (fun b =>
  match b with
  | AB true =>
      Do (OItDeref i) eq_refl (fun v =>
      match v with
      | AV v => Do (OEmit v) eq_refl (fun _ => Do (OItInc i) eq_refl (fun j => match j with AIt j => each j e k | _ => Skip end))
      | _ => Skip
      end)
  | _ => k
  end).
(** ... from begin(x) to end(x). *)
Definition each_of (x : nat) (k : stm) : stm :=
  Do (OBegin x) eq_refl (fun b => Do OEnd eq_refl (fun e =>
  match b, e with AIt b, AIt e => each b e k | _, _ => Skip end)).

(** A coroutine-function that yields the values of [gs] one after the other. *)
Fixpoint produce (s : nat) (gs : list arg) (k : stm) : stm := match gs with [] => k | g :: gs => push s g (produce s gs k) end.

(** [try { pull_type seq( fn); for ( auto v : seq) std::cout << v; std::cout << fin; }
     catch ( E & e) { std::cout << caught( e); }] (example/parser.cpp:99-121) *)
Definition range_main (fn : nat -> stm) (fin : T) (caught : E -> T) : strat :=
  cxx (Try (LocalCo Pull KVal plain_new fn (fun seq => each_of seq (emit fin Return)) Skip) (fun e => emit (caught e) Return) Skip).

(** std::equal(i, e, j) with three iterators (example/same_fringe.cpp:142-144):
    [for (; i != e; ++i, ++j) if (! ( *i == *j) ) return false; return true;] *)
CoFixpoint equal_loop `{EqDecision T} (i e j : iter) (k : bool -> stm) : stm :=
  Do (OItNe i e) eq_refl (fun b =>
  match b with
  | AB true =>
      Do (OItDeref i) eq_refl (fun v => Do (OItDeref j) eq_refl (fun w =>
      match v, w with
      | AV v, AV w =>
          if decide (v = w)
          then Do (OItInc i) eq_refl (fun i' => Do (OItInc j) eq_refl (fun j' =>
               match i' with AIt i' => match j' with AIt j' => equal_loop i' e j' k | _ => Skip end | _ => Skip end))
          else k false
      | _, _ => Skip
      end))
  | _ => k true
  end).
Definition equal_of `{EqDecision T} (x y : nat) (k : bool -> stm) : stm :=
  Do (OBegin x) eq_refl (fun b => Do OEnd eq_refl (fun e => Do (OBegin y) eq_refl (fun j =>
  match b, e, j with AIt b, AIt e, AIt j => equal_loop b e j k | _, _, _ => Skip end))).

(** ** example/same_fringe.cpp *)
(** A tree (struct node, lines 16-42): a null pointer, or a node with its subtrees, the
    address of its member [value] and the string stored there. *)
Inductive tree := Null | Node (l : tree) (addr : nat) (v : T) (r : tree).

(** The nodes are in user memory. *)
Fixpoint stored (u : gmap nat T) (t : tree) : Prop :=
  match t with Null => True | Node l a v r => u !! a = Some v /\ stored u l /\ stored u r end.

(** The values from left to right. *)
Fixpoint inorder (t : tree) : list T :=
  match t with Null => [] | Node l _ v r => inorder l ++ v :: inorder r end.

(** traverse (lines 81-87), followed by [k]; [Null] is what [if (n->left)] tests. *)
Fixpoint traverse (n : tree) (out : nat) (k : stm) : stm :=
  match n with
  | Null => k
  | Node l value _ r => traverse l out (push out (ACopy value) (traverse r out k))
  end.

(** [coroutine<std::string>::pull_type reader([&](push_type & out){ traverse(t, out); }); body] *)
Definition with_reader (t : tree) (body : nat -> stm) (k : stm) : stm :=
  LocalCo Pull KVal plain_new (fun out => traverse t out Skip) body k.

(** The first block of main (lines 90-125): readers for several trees are made one after
    the other, each is printed; all live till the end of the block. *)
Fixpoint print_all (ts : list tree) (k : stm) : stm :=
  match ts with
  | [] => k
  | t :: ts => with_reader t (fun x => each_of x (print_all ts Skip)) k
  end.
(** The other blocks (lines 126-147, 148-169): compare two trees. *)
Definition compare `{EqDecision T} (yes no : T) (t1 t2 : tree) (k : stm) : stm :=
  with_reader t1 (fun x => with_reader t2 (fun y => equal_of x y (fun b => emit (if b : bool then yes else no) Skip)) Skip) k.
Fixpoint compare_all `{EqDecision T} (yes no : T) (ps : list (tree * tree)) (k : stm) : stm :=
  match ps with [] => k | (t1, t2) :: ps => compare yes no t1 t2 (compare_all yes no ps k) end.
Definition same_fringe `{EqDecision T} (yes no fin : T) (ts : list tree) (ps : list (tree * tree)) : strat :=
  cxx (print_all ts (compare_all yes no ps (emit fin Skip))).

(** ** example/parser.cpp *)
(** What the parser distinguishes: isspace, isdigit, '+' or '-', '*' or '/', '(' and ')'. *)
Inductive ckind := CSpace | CDigit | CAdd | CMul | COpen | CClose | COther.

Section parser.
Context (cls : T -> ckind) (perr : E).

(** Member [next] ([None] at the end of the text, where is.get() gives EOF) and the rest of
    the stream. *)
Definition pstate : Type := option T * list T.

(** scan (lines 39-44). *)
Fixpoint scan (is : list T) : pstate :=
  match is with
  | [] => (None, [])
  | c :: is => match cls c with CSpace => scan is | _ => (Some c, is) end
  end.

(** The functions E and T, the loops inside them, and S (lines 57-94). *)
Inductive nonterm := NE | NEs | NT | NTs | NS.

Definition next_is (st : pstate) (k : ckind) : option T :=
  match st.1 with
  | Some c => match cls c, k with
              | CDigit, CDigit | CAdd, CAdd | CMul, CMul | COpen, COpen | CClose, CClose => Some c
              | _, _ => None
              end
  | None => None
  end.

(** What the class Parser does when its callback is an ordinary function (which takes note
    of its argument and returns): the characters reported, then the state in which the
    function returns, or [None] if it throws parser_error. *)
Inductive reports : nonterm -> pstate -> list T -> option pstate -> Prop :=
| rp_E st o1 st1 o2 r : reports NT st o1 (Some st1) -> reports NEs st1 o2 r -> reports NE st (o1 ++ o2) r
| rp_Ex st o1 : reports NT st o1 None -> reports NE st o1 None
| rp_Es st c o1 st1 o2 r : next_is st CAdd = Some c -> reports NT (scan st.2) o1 (Some st1) -> reports NEs st1 o2 r -> reports NEs st (c :: o1 ++ o2) r
| rp_Esx st c o1 : next_is st CAdd = Some c -> reports NT (scan st.2) o1 None -> reports NEs st (c :: o1) None
| rp_Es0 st : next_is st CAdd = None -> reports NEs st [] (Some st)
| rp_T st o1 st1 o2 r : reports NS st o1 (Some st1) -> reports NTs st1 o2 r -> reports NT st (o1 ++ o2) r
| rp_Tx st o1 : reports NS st o1 None -> reports NT st o1 None
| rp_Ts st c o1 st1 o2 r : next_is st CMul = Some c -> reports NS (scan st.2) o1 (Some st1) -> reports NTs st1 o2 r -> reports NTs st (c :: o1 ++ o2) r
| rp_Tsx st c o1 : next_is st CMul = Some c -> reports NS (scan st.2) o1 None -> reports NTs st (c :: o1) None
| rp_Ts0 st : next_is st CMul = None -> reports NTs st [] (Some st)
| rp_Sd st c : next_is st CDigit = Some c -> reports NS st [c] (Some (scan st.2))
| rp_Sp st c o1 st1 d : next_is st CDigit = None -> next_is st COpen = Some c -> reports NE (scan st.2) o1 (Some st1) -> next_is st1 CClose = Some d ->
    reports NS st (c :: o1 ++ [d]) (Some (scan st1.2))
| rp_Spx st c o1 : next_is st CDigit = None -> next_is st COpen = Some c -> reports NE (scan st.2) o1 None -> reports NS st (c :: o1) None
| rp_Spc st c o1 st1 : next_is st CDigit = None -> next_is st COpen = Some c -> reports NE (scan st.2) o1 (Some st1) -> next_is st1 CClose = None ->
    reports NS st (c :: o1) None
| rp_S0 st : next_is st CDigit = None -> next_is st COpen = None -> reports NS st [] None.

(** The same functions with the callback of main (lines 106-108), which pushes its argument
    into the coroutine.  [yield(ch)] copies the char [ch]; here it is given as a temporary,
    which makes no difference for char.  [n] bounds the depth of recursion, which Coq needs;
    main takes a bound that is never reached (FactsProg.v: [parse_reports]). *)
Fixpoint parse (yield : nat) (n : nat) (nt : nonterm) (st : pstate) (k : pstate -> stm) : stm :=
  match n with
  | O => Skip
  | S n =>
      match nt with
      | NE => parse yield n NT st (fun st => parse yield n NEs st k)
      | NEs => match next_is st CAdd with
               | Some c => push yield (AImm c) (parse yield n NT (scan st.2) (fun st => parse yield n NEs st k))
               | None => k st
               end
      | NT => parse yield n NS st (fun st => parse yield n NTs st k)
      | NTs => match next_is st CMul with
               | Some c => push yield (AImm c) (parse yield n NS (scan st.2) (fun st => parse yield n NTs st k))
               | None => k st
               end
      | NS => match next_is st CDigit with
              | Some c => push yield (AImm c) (k (scan st.2))
              | None =>
                  match next_is st COpen with
                  | Some c => push yield (AImm c) (parse yield n NE (scan st.2) (fun st =>
                      match next_is st CClose with Some d => push yield (AImm d) (k (scan st.2)) | None => Throw perr end))
                  | None => Throw perr
                  end
              end
      end
  end.

(** main (lines 99-121); [fin] and [failed] stand for what is printed at the end. *)
Definition depth (text : list T) : nat := 8 + 4 * length text.
Definition parser_main (fin failed : T) (text : list T) : strat :=
  range_main (fun yield => parse yield (depth text) NE (scan text) (fun _ => Skip)) fin (fun _ => failed).

(** The grammar in the comment before class Parser (lines 23-29) without the end mark: what
    each nonterminal derives. *)
Inductive derives : nonterm -> list T -> Prop :=
| dv_E l1 l2 : derives NT l1 -> derives NEs l2 -> derives NE (l1 ++ l2)
| dv_Es c l1 l2 : cls c = CAdd -> derives NT l1 -> derives NEs l2 -> derives NEs (c :: l1 ++ l2)
| dv_Es0 : derives NEs []
| dv_T l1 l2 : derives NS l1 -> derives NTs l2 -> derives NT (l1 ++ l2)
| dv_Ts c l1 l2 : cls c = CMul -> derives NS l1 -> derives NTs l2 -> derives NTs (c :: l1 ++ l2)
| dv_Ts0 : derives NTs []
| dv_Sd c : cls c = CDigit -> derives NS [c]
| dv_Sp c l d : cls c = COpen -> derives NE l -> cls d = CClose -> derives NS (c :: l ++ [d]).

(** The text without white space. *)
Definition nonspace (text : list T) : list T := filter (fun c => match cls c with CSpace => false | _ => true end = true) text.
End parser.

(** ** example/fibonacci.cpp *)
(** The coroutine-function (lines 14-23): [n] rounds of the loop (8 in the example); [int]
    represents a number as a value.  [sink(first)] copies a local variable; here the value is
    given as a temporary, which makes no difference for int. *)
Fixpoint fib_loop (int : nat -> T) (sink n first second : nat) : stm :=
  match n with
  | O => Skip
  | S n => let third := first + second in push sink (AImm (int third)) (fib_loop int sink n second third)
  end.
Definition fib_fn (int : nat -> T) (n sink : nat) : stm :=
  push sink (AImm (int 1)) (push sink (AImm (int 1)) (fib_loop int sink n 1 1)).
(** main (lines 12-28). *)
Definition fib_main (int : nat -> T) (n : nat) (fin : T) : strat := range_main (fib_fn int n) fin (fun _ => fin).
(** The Fibonacci numbers. *)
Fixpoint fib (n : nat) : nat := match n with O => 0 | S m => match m with O => 1 | S m' => fib m + fib m' end end.

(** ** A generator without end, and a consumer that stops *)
(** Not from /repo: [for ( int i = 0;; ++i) { std::cout << note( i); sink( val( i) ); }] *)
CoFixpoint forever (note val : nat -> T) (i sink : nat) : stm :=
  Do (OEmit (note i)) eq_refl (fun _ => Do (OPush sink (AImm (val i))) eq_refl (fun _ => forever note val (S i) sink)).
(** [for ( auto v : source) { std::cout << v; if ( --n == 0) break; }], left at once if n = 0. *)
Fixpoint each_n (n : nat) (i e : iter) (k : stm) : stm :=
  match n with
  | O => k
  | S n =>
      Do (OItNe i e) eq_refl (fun b =>
      match b with
      | AB true =>
          Do (OItDeref i) eq_refl (fun v =>
          match v with
          | AV v => Do (OEmit v) eq_refl (fun _ =>
              match n with
              | O => k
              | S _ => Do (OItInc i) eq_refl (fun j => match j with AIt j => each_n n j e k | _ => Skip end)
              end)
          | _ => Skip
          end)
      | _ => k
      end)
  end.
Definition take_main (note val : nat -> T) (n : nat) (fin : T) : strat :=
  cxx (LocalCo Pull KVal plain_new (forever note val 0) (fun source =>
    Do (OBegin source) eq_refl (fun b => Do OEnd eq_refl (fun e =>
    match b, e with AIt b, AIt e => each_n n b e (emit fin Skip) | _, _ => Skip end))) Skip).

(** ** example/layout.cpp *)
(** The loops of the coroutine-function (lines 35-45), [i] words on the current line; [nl] is
    std::endl.  Setting the width is left out. *)
CoFixpoint write (nl : T) (num i : nat) (inn : nat) : stm :=
  if Nat.ltb i num
  then Do (ONot inn) eq_refl (fun b =>
       match b with
       | AB false => Do (OGet inn) eq_refl (fun w =>
           match w with AV w => Do (OEmit w) eq_refl (fun _ => Do (OResume inn) eq_refl (fun _ => write nl num (S i) inn)) | _ => Skip end)
       | _ => Return
       end)
  else Do (OEmit nl) eq_refl (fun _ => write nl num 0 inn).

(** std::copy(begin(words), end(words), begin(writer)) (line 47): [*o = word; ++o]. *)
Fixpoint copy_to (words : list T) (o : iter) (k : stm) : stm :=
  match words with
  | [] => k
  | w :: words => Do (OOutAssign o (AImm w)) eq_refl (fun o => match o with AIt o => copy_to words o k | _ => Skip end)
  end.

(** main (lines 21-50).  The automatic object eol (line 33) is number 0: its destructor is
    marked by [dtor 0]. *)
Definition layout_main (nl fin : T) (num : nat) (words : list T) : strat :=
  cxx (LocalCo Push KVal plain_new (fun inn => Local 0 (write nl num 0 inn) Skip)
         (fun writer => Do (OOutBegin writer) eq_refl (fun o => match o with AIt o => copy_to words o (emit fin Skip) | _ => Skip end)) Skip).

(** What appears on the screen: [OEmit] and the destructor of eol, which prints [nl]
    (lines 15-19). *)
Fixpoint screen (nl : T) (h : list event) : list T :=
  match h with
  | [] => []
  | EvCall _ (NOp (OEmit v)) :: h => screen nl h ++ [v]
  | EvCall _ (NOp (OLog 1)) :: h => screen nl h ++ [nl]
  | _ :: h => screen nl h
  end.
(** Rows of [num] words with line breaks between them; [i] words are on the current line. *)
Fixpoint rows (nl : T) (num i : nat) (words : list T) : list T :=
  match words with
  | [] => []
  | w :: words => if decide (i = num) then nl :: w :: rows nl num 1 words else w :: rows nl num (S i) words
  end.

End progs.
