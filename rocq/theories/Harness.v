(** The benchmark drivers around the containers: tests/ycsb.hpp, tests/reddit.hpp, tests/degree.hpp,
    tests/random.hpp, the start barrier of tests/test.hpp and the command line of runTest.{hpp,cpp}.
    Text is a list of characters; a file is its contents.  The C and C++ library calls are modelled as glibc and
    libstdc++ implement them in the "C" locale (sscanf %zu and operator>> clamp to 2^64-1 on overflow and
    negate modulo 2^64 after a minus sign).  Every use of an indeterminate value, every access outside an
    array and every uncaught exception is an outcome of its own. *)
From Coq Require Import NArith Bool List Ascii String.
From stdpp Require Import base list.
From Verif Require Import Word Prog HashMap Codec Container.
Import ListNotations.
Open Scope nat_scope.

Inductive hbad :=
| BadRealloc (* getline reallocates an array on the stack *)
| ReadPast (* a string without its terminating NUL *)
| Uninit (* an indeterminate value is used *)
| WritePast (* an array is written past its end *)
| HAssert (* an assertion fails *)
| DivZero
| BadShift (* a shift by at least the width of the operand *)
| Throws. (* an exception leaves the thread or main: std::terminate *)
Inductive hres (A : Type) := HOk (a : A) | HBad (e : hbad).
Arguments HOk {A} a.
Arguments HBad {A} e.

(** ** Text *)
Definition text := list ascii.
Definition NL : ascii := "010".
Definition NUL : ascii := "000".
Definition txt (s : string) : text := list_ascii_of_string s.

(** The lines of a file, each with the newline that ends it (the last one may have none): what successive calls
    of getline(3) deliver. *)
Fixpoint split_lines (cur cs : text) : list text :=
  match cs with
  | [] => match cur with [] => [] | _ => [rev cur] end
  | c :: cs' => if Ascii.eqb c NL then rev (c :: cur) :: split_lines [] cs' else split_lines (c :: cur) cs'
  end.
Definition lines_of (file : text) : list text := split_lines [] file.
(** std::getline(stream, string) drops the newline, which only the end of a line can be. *)
Definition chomp (l : text) : text := List.filter (fun c => negb (Ascii.eqb c NL)) l.

(** isspace(3) *)
Definition is_space (c : ascii) : bool :=
  let n := N_of_ascii c in (n =? 32)%N || ((9 <=? n) && (n <=? 13))%N.
Fixpoint skip_space (cs : text) : text :=
  match cs with c :: cs' => if is_space c then skip_space cs' else cs | [] => [] end.
Definition digit (c : ascii) : option N :=
  let n := N_of_ascii c in if ((48 <=? n) && (n <=? 57))%N then Some (n - 48)%N else None.
(** The number at the start of [cs], and what follows it. *)
Fixpoint digits (acc : N) (cs : text) : N * text :=
  match cs with
  | c :: cs' => match digit c with Some d => digits (10 * acc + d)%N cs' | None => (acc, cs) end
  | [] => (acc, [])
  end.
Definition unsigned (cs : text) : option (N * text) :=
  match cs with c :: _ => match digit c with Some _ => Some (digits 0%N cs) | None => None end | [] => None end.
(** An optional sign and digits: negative?, absolute value, rest. *)
Definition signed (cs : text) : option (bool * N * text) :=
  match cs with
  | c :: cs' =>
      if Ascii.eqb c "-" then option_map (fun p => (true, fst p, snd p)) (unsigned cs')
      else if Ascii.eqb c "+" then option_map (fun p => (false, fst p, snd p)) (unsigned cs')
      else option_map (fun p => (false, fst p, snd p)) (unsigned cs)
  | [] => None
  end.
(** The 64-bit unsigned value: 2^64-1 when out of range. *)
Definition to_u64 (neg : bool) (v : N) : N :=
  if (v <? two64)%N then (if neg then (two64 - v) mod two64 else v)%N else (two64 - 1)%N.

(** sscanf(str, "%zu", &x): [None] when nothing is assigned to x. *)
Definition scan_zu (cs : text) : option N :=
  match signed (skip_space cs) with Some (neg, v, _) => Some (to_u64 neg v) | None => None end.

(** stream >> x for an unsigned 64-bit x: nothing left after the white space (x keeps its value), a conversion
    that fails and stores x, or a value and the rest of the stream. *)
Inductive ext := ENone | EFail (x : N) | EGot (x : N) (rest : text).
Definition extract (cs : text) : ext :=
  match skip_space cs with
  | [] => ENone
  | cs' => match signed cs' with
           | Some (neg, v, rest) => if (v <? two64)%N then EGot (to_u64 neg v) rest else EFail (to_u64 neg v)
           | None => EFail 0
           end
  end.

(** ** tests/ycsb.hpp *)
(** ycsb.hpp:10; the theorems take any positive bound for it. *)
Definition operationCount : N := 16000000.
(** ycsb.hpp:11-22 struct op *)
Inductive ykind := YInsert | YRead | YDelete | YUpdate.
Record yop := mkYop { y_kind : ykind; y_val : N }.

(** getline(&pbuf, &len, file), ycsb.hpp:43, 81: the line and a NUL are stored in the array [buf]; what the array
    held behind them stays.  A line that does not fit makes getline call realloc on the array. *)
Definition getline (buf line : text) : hres text :=
  if S (List.length line) <=? List.length buf then HOk (line ++ NUL :: skipn (S (List.length line)) buf)
  else HBad BadRealloc.

(** strncmp(buf, p, strlen(p)) == 0 *)
Fixpoint starts (p buf : text) : bool :=
  match p, buf with
  | [], _ => true
  | a :: p', b :: buf' => Ascii.eqb a b && starts p' buf'
  | _ :: _, [] => false
  end.

(** The C string at the start of [cs]. *)
Fixpoint cstr (cs : text) : hres text :=
  match cs with
  | [] => HBad ReadPast
  | c :: cs' => if Ascii.eqb c NUL then HOk []
                else match cstr cs' with HOk l => HOk (c :: l) | HBad e => HBad e end
  end.
(** sscanf(buf + off, "%zu", &x) for an x that holds [old] ([None]: indeterminate). *)
Definition scan_at (buf : text) (off : nat) (old : option N) : hres (option N) :=
  match cstr (skipn off buf) with
  | HOk s => HOk (match scan_zu s with Some v => Some v | None => old end)
  | HBad e => HBad e
  end.

(** The load phase, ycsb.hpp:43-54: the elements that are inserted, and the array afterwards.  scanVal is declared
    in the loop's body. *)
Fixpoint load (lines : list text) (buf : text) : hres (list N * text) :=
  match lines with
  | [] => HOk ([], buf)
  | l :: ls =>
      match getline buf l with
      | HBad e => HBad e
      | HOk buf' =>
          if starts (txt "INSERT") buf' then
            match scan_at buf' 7 None with
            | HBad e => HBad e
            | HOk None => HBad Uninit
            | HOk (Some v) =>
                match load ls buf' with HOk (vs, b) => HOk (v :: vs, b) | HBad e => HBad e end
            end
          else load ls buf'
      end
  end.

(** ycsb.hpp:83-110: what the line is taken for, and where its number is looked for. *)
Definition recognise (buf : text) : option (ykind * nat) :=
  if starts (txt "INSERT") buf then Some (YInsert, 7)
  else if starts (txt "READ") buf then Some (YRead, 5)
  else if starts (txt "DELETE") buf then Some (YDelete, 7)
  else if starts (txt "UPDATE") buf then Some (YUpdate, 7)
  else None.

(** The array, scanVal, operation_num, and the queues; move[t] is the length of queue t. *)
Record yst := mkYst { y_buf : text; y_scan : option N; y_num : N; y_q : list (list yop) }.
Definition yst0 (buf : text) (T : N) : yst := mkYst buf None 0 (repeat [] (N.to_nat T)).

Section Fill.
(** NDEBUG, the size of the queues (operationCount), ti.num_threads *)
Context (nd : bool) (cap T : N).

(** runQueue[t][move[t]] = o; move[t]++ *)
Definition push (t : N) (o : yop) (q : list (list yop)) : hres (list (list yop)) :=
  match q !! N.to_nat t with
  | Some l => if (N.of_nat (List.length l) <? cap)%N then HOk (<[N.to_nat t := l ++ [o]]> q) else HBad WritePast
  | None => HBad WritePast
  end.
(** assert(move[t] <= operationCount), ycsb.hpp:111 *)
Definition move_ok (t : N) (q : list (list yop)) : bool :=
  nd || match q !! N.to_nat t with Some l => (N.of_nat (List.length l) <=? cap)%N | None => false end.

(** One iteration, ycsb.hpp:81-112 *)
Definition fill_line (l : text) (y : yst) : hres yst :=
  match getline (y_buf y) l with
  | HBad e => HBad e
  | HOk buf =>
      if (T =? 0)%N then
        if nd then match recognise buf with
                   | Some _ => HBad DivZero
                   | None => HOk (mkYst buf (y_scan y) (y_num y + 1) (y_q y))
                   end
        else HBad DivZero
      else
        let t := (y_num y mod T)%N in
        let r := match recognise buf with
                 | None => HOk (y_scan y, y_q y)
                 | Some (k, off) =>
                     match scan_at buf off (y_scan y) with
                     | HBad e => HBad e
                     | HOk None => HBad Uninit
                     | HOk (Some v) => match push t (mkYop k v) (y_q y) with
                                       | HOk q => HOk (Some v, q)
                                       | HBad e => HBad e
                                       end
                     end
                 end in
        match r with
        | HBad e => HBad e
        | HOk (sc, q) => if move_ok t q then HOk (mkYst buf sc (y_num y + 1) q) else HBad HAssert
        end
  end.

(** The loop, ycsb.hpp:81-118: it stops at the end of the file or when operation_num > operationCount. *)
Fixpoint fill (lines : list text) (y : yst) : hres yst :=
  match lines with
  | [] => HOk y
  | l :: ls => match fill_line l y with
               | HBad e => HBad e
               | HOk y' => if (cap <? y_num y')%N then HOk y' else fill ls y'
               end
  end.
End Fill.

(** container_test_prefix, ycsb.hpp:29-122: the elements inserted before the run, and the threads' queues. *)
Definition ycsb_prefix (nd : bool) (cap T : N) (loadFile runFile : text) (buf : text) : hres (list N * list (list yop)) :=
  match load (lines_of loadFile) buf with
  | HBad e => HBad e
  | HOk (vs, buf') =>
      match fill nd cap T (lines_of runFile) (yst0 buf' T) with
      | HBad e => HBad e
      | HOk y => HOk (vs, y_q y)
      end
  end.
(** ycsb.hpp:132-155: the container call for one queue entry. *)
Definition yop_cop (o : yop) : cop :=
  match y_kind o with
  | YInsert => CInsert (y_val o)
  | YRead => CContains (y_val o)
  | YDelete => CErase (y_val o)
  | YUpdate => CInsert (y_val o)
  end.

(** ** tests/reddit.hpp and tests/degree.hpp *)
(** reddit.hpp:38-45: the elements that are incremented; [val] is the variable of line 39. *)
Fixpoint reddit_lines (lines : list text) (val : option N) : hres (list N) :=
  match lines with
  | [] => HOk []
  | l :: ls =>
      let val' := match extract (chomp l) with ENone => val | EFail v => Some v | EGot v _ => Some v end in
      match val' with
      | None => HBad Uninit
      | Some v => match reddit_lines ls val' with HOk vs => HOk (v :: vs) | HBad e => HBad e end
      end
  end.
Definition reddit_keys (file : text) : hres (list N) := reddit_lines (lines_of file) None.

(** if (ss.peek() == ' ') ss.ignore(), degree.hpp:60-61 *)
Definition skip_blank (cs : text) : text :=
  match cs with c :: cs' => if Ascii.eqb c " " then cs' else cs | [] => [] end.
(** degree.hpp:44-63: the columns of a line; [inc] is the variable incoming.  [n] bounds the number of columns; a
    line has fewer columns than characters.  (outgoing is assigned and never read.) *)
Fixpoint degree_cols (n colIdx : nat) (ss : text) (inc : option N) : hres (option N) :=
  match n with
  | 0 => HOk inc
  | S n' => match extract ss with
            | EGot v rest =>
                match colIdx with
                | 0 => degree_cols n' 1 (skip_blank rest) inc
                | 1 => degree_cols n' 2 (skip_blank rest) (Some v)
                | _ => HBad Throws
                end
            | _ => HOk inc
            end
  end.
(** degree.hpp:38-65: the elements that are incremented. *)
Fixpoint degree_lines (lines : list text) (inc : option N) : hres (list N) :=
  match lines with
  | [] => HOk []
  | l :: ls =>
      match degree_cols (S (List.length l)) 0 (chomp l) inc with
      | HBad e => HBad e
      | HOk None => HBad Uninit
      | HOk (Some v) => match degree_lines ls (Some v) with HOk vs => HOk (v :: vs) | HBad e => HBad e end
      end
  end.
Definition degree_keys (file : text) : hres (list N) := degree_lines (lines_of file) None.

(** reddit.hpp:15-25 and degree.hpp:15-25: the pairs that are printed. *)
Fixpoint report_from (C : cfg) (n todo : nat) (i : N) : prog (list (N * N)) :=
  match todo with
  | 0 => Ret []
  | S todo' =>
      b <-- c_contains C n i;;
      here <-- (if b then v <-- c_get C n i;; Ret [(i, v)] else Ret []);;
      rest <-- report_from C n todo' (i + 1)%N;;
      Ret (here ++ rest)
  end.
Definition report (C : cfg) (n : nat) : prog (list (N * N)) :=
  c <-- c_count;; report_from C n (N.to_nat c) 0%N.

(** ** tests/random.hpp *)
(** random.hpp:44-51: values are drawn until one is not reserved; [rs] is the stream of rand().  The test is on
    the element itself, not on the key made of it. *)
Fixpoint draw (sh : N) (rs : list N) : option (N * list N) :=
  match rs with
  | [] => None
  | v :: rs' => if isValueReserved (shl64 v sh) || isKeyReserved (shl64 v sh) then draw sh rs' else Some (v, rs')
  end.
(** random.hpp:53-81 *)
Definition random_op (v choice : N) : list cop :=
  match (choice mod 8)%N with
  | 0%N => [CInsert v]
  | 1%N => [CErase v]
  | 2%N => [CContains v]
  | 3%N => [CGet v]
  | 4%N => [CCount]
  | 5%N => [CIncrement v]
  | _ => []
  end.
(** random.hpp:41-82: the calls of [numops] iterations. *)
Fixpoint random_main (numops : nat) (rs : list N) : option (list cop) :=
  match numops with
  | 0 => Some []
  | S n => match draw 0 rs with
           | Some (v, c :: rs') => option_map (app (random_op v c)) (random_main n rs')
           | _ => None
           end
  end.
(** random.hpp:16-33: the calls made before the threads start. *)
Fixpoint random_prefix (numops : nat) (rs : list N) : option (list cop * list N) :=
  match numops with
  | 0 => Some ([], rs)
  | S n => match rs with
           | [] => None
           | c :: rs' =>
               if (c mod 2 =? 0)%N then random_prefix n rs'
               else match draw BITS_MARKED rs' with
                    | Some (v, rs'') =>
                        match random_prefix n rs'' with Some (os, r) => Some (CInsert v :: os, r) | None => None end
                    | None => None
                    end
           end
  end.

(** ** The start barrier, tests/test.hpp:14-22 *)
Inductive bpc := BAssert | BDec | BSpin | BGo.
Record bst := mkBst { b_wait : N; b_pcs : list bpc }.
(** runTest.hpp:159-168: the counter is set before the threads are created. *)
Definition bst0 (T : nat) : bst := mkBst (N.of_nat T) (repeat BAssert T).
(** One access of thread [i] to waiting_threads (a 64-bit counter); [None]: the assertion fails. *)
Definition bstep (nd : bool) (i : nat) (s : bst) : option bst :=
  match b_pcs s !! i with
  | Some BAssert => if nd || negb (b_wait s =? 0)%N then Some (mkBst (b_wait s) (<[i := BDec]> (b_pcs s))) else None
  | Some BDec => Some (mkBst ((b_wait s + (two64 - 1)) mod two64) (<[i := BSpin]> (b_pcs s)))
  | Some BSpin => if (b_wait s =? 0)%N then Some (mkBst (b_wait s) (<[i := BGo]> (b_pcs s))) else Some s
  | Some BGo | None => Some s
  end.
Fixpoint brun (nd : bool) (sched : list nat) (s : bst) : option bst :=
  match sched with
  | [] => Some s
  | i :: sched' => match bstep nd i s with Some s' => brun nd sched' s' | None => None end
  end.

(** ** The command line, runTest.hpp:71-120 and runTest.cpp:11-33 *)
Record settings := mkSet { set_threads : N; set_ops : N; set_runs : N; set_cap : N; set_file : text;
                           set_recover : bool; set_wipe : bool }.
(** runTest.hpp:71-80 *)
Definition default_settings : settings := mkSet 8 40 1 16 (txt "/mnt/pmem/pm1/persist.bin") true false.

(** conv<size_t>, runTest.hpp:89-98: res is not initialised. *)
Definition conv_num (v : text) : hres N :=
  match extract v with ENone => HBad Uninit | EFail x => HOk x | EGot x _ => HOk x end.
(** conv<bool>: operator>> without boolalpha reads a number; 0 and a failed conversion give false, everything else
    true. *)
Definition conv_bool (v : text) : hres bool :=
  match skip_space v with
  | [] => HBad Uninit
  | cs => HOk match signed cs with Some (_, x, _) => negb (x =? 0)%N | None => false end
  end.
(** conv<std::string>: the first word. *)
Fixpoint word_of (cs : text) : text :=
  match cs with c :: cs' => if is_space c then [] else c :: word_of cs' | [] => [] end.
Definition conv_text (v : text) : text := word_of (skip_space v).

Definition with_threads x s := mkSet x (set_ops s) (set_runs s) (set_cap s) (set_file s) (set_recover s) (set_wipe s).
Definition with_ops x s := mkSet (set_threads s) x (set_runs s) (set_cap s) (set_file s) (set_recover s) (set_wipe s).
Definition with_runs x s := mkSet (set_threads s) (set_ops s) x (set_cap s) (set_file s) (set_recover s) (set_wipe s).
Definition with_cap x s := mkSet (set_threads s) (set_ops s) (set_runs s) x (set_file s) (set_recover s) (set_wipe s).
Definition with_file x s := mkSet (set_threads s) (set_ops s) (set_runs s) (set_cap s) x (set_recover s) (set_wipe s).
Definition with_recover x s := mkSet (set_threads s) (set_ops s) (set_runs s) (set_cap s) (set_file s) x (set_wipe s).
Definition with_wipe x s := mkSet (set_threads s) (set_ops s) (set_runs s) (set_cap s) (set_file s) (set_recover s) x.

(** matchOpt1 and matchOpt0, runTest.hpp:100-121: the argument begins with the option.  [sel] says which option
    matches first in the order of runTest.cpp:19-26. *)
Inductive which := WT | WN | WP | WC | WF | WR | WW | WH.
Definition sel (a : text) : option which :=
  if starts (txt "-t") a then Some WT else if starts (txt "-n") a then Some WN
  else if starts (txt "-p") a then Some WP else if starts (txt "-c") a then Some WC
  else if starts (txt "-f") a then Some WF else if starts (txt "-r") a then Some WR
  else if starts (txt "-w") a then Some WW else if starts (txt "-h") a then Some WH else None.
Definition hmap {A B} (f : A -> B) (r : hres A) : hres B := match r with HOk a => HOk (f a) | HBad e => HBad e end.
(** fld = conv<T>(value) *)
Definition assign (w : which) (v : text) (s : settings) : hres settings :=
  match w with
  | WT => hmap (fun x => with_threads x s) (conv_num v)
  | WN => hmap (fun x => with_ops x s) (conv_num v)
  | WP => hmap (fun x => with_runs x s) (conv_num v)
  | WC => hmap (fun x => with_cap x s) (conv_num v)
  | WF => HOk (with_file (conv_text v) s)
  | WR => hmap (fun x => with_recover x s) (conv_bool v)
  | WW => hmap (fun x => with_wipe x s) (conv_bool v)
  | WH => HOk s
  end.
(** How reading the command line ends: the settings to run with, the help text, or exit(1). *)
Inductive cli := CRun (s : settings) | CHelp | CUnknown (a : text).
(** runTest.cpp:13-33, on the arguments after the program's name.  A missing value makes args.at throw, outside of
    main's try block. *)
Fixpoint parse_args (args : list text) (s : settings) : hres cli :=
  match args with
  | [] => HOk (CRun s)
  | a :: rest =>
      match sel a with
      | None => HOk (CUnknown a)
      | Some WH => HOk CHelp
      | Some w => match rest with
                  | [] => HBad Throws
                  | v :: rest' => match assign w v s with HOk s' => parse_args rest' s' | HBad e => HBad e end
                  end
      end
  end.

(** 1 << capacity with an int on the left, ucfMap.hpp:50 and define.hpp:67: the shift by 31 reaches the sign (prescribed in
    C++20, which makefile:33 asks for), and the conversion to size_t extends it. *)
Definition real_capacity (c : N) : hres N :=
  if (c <? 31)%N then HOk (N.shiftl 1 c) else if (c =? 31)%N then HOk (two64 - N.shiftl 1 31)%N else HBad BadShift.
(** ThreadInfo's assertion for the prefix, runTest.hpp:153 and define.hpp:94, and the average of runTest.cpp:57. *)
Definition check_threads (nd : bool) (s : settings) : hres unit :=
  if nd || (0 <? set_threads s)%N then HOk tt else HBad HAssert.
Definition average (total : N) (s : settings) : hres N :=
  if (set_runs s =? 0)%N then HBad DivZero else HOk (total / set_runs s)%N.
