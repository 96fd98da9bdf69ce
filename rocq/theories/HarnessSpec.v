(** What the benchmark drivers should do, in terms of the numbers in their input files. *)
From Coq Require Import ZArith NArith Bool List Ascii String.
From stdpp Require Import base list.
From Verif Require Import Word Prog HashMap Container ContainerSpec Harness.
Import ListNotations.
Open Scope nat_scope.

(** ** Numbers as text *)
(** [t] is the number [v] in decimal. *)
Definition decimal (t : text) (v : N) : Prop :=
  exists ds, ds <> [] /\ Forall (fun d => (d < 10)%N) ds /\
    t = map (fun d => ascii_of_N (48 + d)) ds /\ v = fold_left (fun a d => (10 * a + d)%N) ds 0%N.
(** A number does not continue in [t]. *)
Definition no_digit (t : text) : Prop :=
  match t with c :: _ => (N_of_ascii c < 48 \/ 57 < N_of_ascii c)%N | [] => True end.
(** Blanks and the other white space. *)
Definition blank (t : text) : Prop := Forall (fun c => N_of_ascii c = 32 \/ (9 <= N_of_ascii c <= 13)%N)%N t.

(** What a 64-bit number becomes of the number [v]. *)
Definition word_value (v : N) : N := N.min v (2 ^ 64 - 1).

(** A sign, and what becomes of a number with it: a negative one counts down from 2^64. *)
Definition sign_text (sg : option bool) : text := match sg with Some true => txt "-" | Some false => txt "+" | None => [] end.
Definition signed_value (sg : option bool) (v : N) : N :=
  match sg with
  | Some true => if (v <? 2 ^ 64)%N then Z.to_N ((- Z.of_N v) mod 2 ^ 64) else (2 ^ 64 - 1)%N
  | _ => word_value v
  end.

(** A file of the lines [ls]; the last one may lack its newline. *)
Definition file_of (ls : list text) : text := concat (map (fun l => l ++ [NL]) ls).
Definition text_of (ls : list text) (f : text) : Prop :=
  f = file_of ls \/ exists ls' l, ls = ls' ++ [l] /\ l <> [] /\ f = file_of ls' ++ l.
Definition one_line (l : text) : Prop := ~ In NL l.

(** The line and its newline fit into the drivers' array of 1024 characters. *)
Definition fits (l : text) : Prop := List.length l < 1023.

(** ** YCSB traces *)
Definition keyword (k : ykind) : text :=
  match k with
  | YInsert => txt "INSERT"
  | YRead => txt "READ"
  | YDelete => txt "DELETE"
  | YUpdate => txt "UPDATE"
  end.
(** The line is the operation [Some o], or is no operation. *)
Definition line_is (l : text) (i : option yop) : Prop :=
  match i with
  | Some o => exists ws sg nt rest v, l = keyword (y_kind o) ++ txt " " ++ ws ++ sign_text sg ++ nt ++ rest /\ blank ws /\ decimal nt v /\
                                y_val o = signed_value sg v /\ no_digit rest
  | None => forall k rest, l <> keyword k ++ rest
  end.
(** The operations among the lines. *)
Definition ops_of (items : list (option yop)) : list yop :=
  flat_map (fun i => match i with Some o => [o] | None => [] end) items.
(** The elements of the inserts among them. *)
Definition inserts_of (items : list (option yop)) : list N :=
  flat_map (fun i => match i with Some (mkYop YInsert v) => [v] | _ => [] end) items.
(** The lines whose number is [t] modulo [T]; the first line has the number [j]. *)
Fixpoint share (T t j : N) (items : list (option yop)) : list (option yop) :=
  match items with
  | [] => []
  | i :: items' => if (j mod T =? t)%N then i :: share T t (j + 1) items' else share T t (j + 1) items'
  end.

(** Whether [el] is in the database after the operations, when it is [now]. *)
Fixpoint in_db (el : N) (now : bool) (os : list yop) : bool :=
  match os with
  | [] => now
  | mkYop YRead _ :: os' => in_db el now os'
  | mkYop YDelete v :: os' => in_db el (if (v =? el)%N then false else now) os'
  | mkYop YInsert v :: os' | mkYop YUpdate v :: os' => in_db el (if (v =? el)%N then true else now) os'
  end.
(** After the elements [vs] were loaded. *)
Definition in_db_from (vs : list N) (os : list yop) (el : N) : bool := in_db el (existsb (N.eqb el) vs) os.

(** ** Files of numbers *)
(** The line begins with a number, perhaps with a sign, that is [x] as a 64-bit number. *)
Definition begins_with (l : text) (x : N) : Prop :=
  exists ws sg nt rest v, l = ws ++ sign_text sg ++ nt ++ rest /\ blank ws /\ decimal nt v /\ x = signed_value sg v /\ no_digit rest.
(** What is in the variable after reading the line, if it holds [prev] before. *)
Inductive reads (prev : option N) (l : text) : option N -> Prop :=
| reads_number x : begins_with l x -> reads prev l (Some x)
| reads_blank : blank l -> reads prev l prev
| reads_text : ~ blank l -> (forall x, ~ begins_with l x) -> reads prev l (Some 0%N).
(** The numbers read line by line. *)
Inductive reads_all : option N -> list text -> list N -> Prop :=
| reads_nil prev : reads_all prev [] []
| reads_cons prev l x ls xs : reads prev l (Some x) -> reads_all (Some x) ls xs -> reads_all prev (l :: ls) (x :: xs).
(** The numbers at the beginning of a line, as many as there are before something else or a number from 2^64 on. *)
Inductive columns : text -> list N -> Prop :=
| columns_end l : (forall ws sg nt rest v, blank ws -> decimal nt v -> no_digit rest -> (v < 2 ^ 64)%N -> l <> ws ++ sign_text sg ++ nt ++ rest) ->
    columns l []
| columns_number ws sg nt rest v ns : blank ws -> decimal nt v -> no_digit rest -> (v < 2 ^ 64)%N -> columns rest ns ->
    columns (ws ++ sign_text sg ++ nt ++ rest) (signed_value sg v :: ns).
(** The second numbers of the lines with the columns [nss]; a line without one repeats the one before. *)
Fixpoint second_numbers (prev : option N) (nss : list (list N)) : hres (list N) :=
  match nss with
  | [] => HOk []
  | ns :: nss' =>
      match ns, prev with
      | [_; x], _ | ([] | [_]), Some x => match second_numbers (Some x) nss' with HOk xs => HOk (x :: xs) | HBad e => HBad e end
      | ([] | [_]), None => HBad Uninit
      | _ :: _ :: _ :: _, _ => HBad Throws
      end
  end.
(** The line consists of two numbers, perhaps with signs, that are the pair as 64-bit numbers. *)
Definition pair_line (l : text) (p : N * N) : Prop :=
  exists w1 s1 n1 v1 w2 s2 n2 v2 w3, l = w1 ++ (sign_text s1 ++ n1) ++ w2 ++ (sign_text s2 ++ n2) ++ w3 /\
    blank w1 /\ blank w2 /\ w2 <> [] /\ blank w3 /\ decimal n1 v1 /\ decimal n2 v2 /\ (v1 < two64)%N /\ (v2 < two64)%N /\
    p = (signed_value s1 v1, signed_value s2 v2).

Definition occurrences (el : N) (els : list N) : N := N.of_nat (List.length (List.filter (N.eqb el) els)).

(** One thread increments the elements one after the other, and the table never grows. *)
Inductive counted_to (C : cfg) (s0 : state) : list N -> state -> Prop :=
| counted_nil : counted_to C s0 [] s0
| counted_snoc els s n el r s' : counted_to C s0 els s -> run (c_increment C n el) s = Ok r s' ->
    st_top s' = st_top s -> counted_to C s0 (els ++ [el]) s'.

(** Calls on elements whose keys are not reserved; legal elements may also be incremented. *)
Definition legal_rop (o : cop) : Prop := match o with CIncrement el => legal_el el | _ => legal_cop o end.

(** ** The command line *)
Inductive setting := SThreads (x : N) | SOps (x : N) | SRuns (x : N) | SCap (x : N) | SFile (f : text)
                   | SRecover (b : bool) | SWipe (b : bool).
Definition option_name (o : setting) : text :=
  match o with
  | SThreads _ => txt "-t" | SOps _ => txt "-n" | SRuns _ => txt "-p" | SCap _ => txt "-c"
  | SFile _ => txt "-f" | SRecover _ => txt "-r" | SWipe _ => txt "-w"
  end.
(** [v] is the text of the option's value: a number, a path (its first word counts), zero or another number. *)
Definition option_value (o : setting) (v : text) : Prop :=
  match o with
  | SThreads x | SOps x | SRuns x | SCap x => begins_with v x
  | SFile f => exists ws rest, v = ws ++ f ++ rest /\ blank ws /\ f <> [] /\ blank (firstn 1 rest) /\
                 Forall (fun c => ~ (N_of_ascii c = 32 \/ 9 <= N_of_ascii c <= 13))%N f
  | SRecover b | SWipe b => exists ws sg nt rest y, v = ws ++ sign_text sg ++ nt ++ rest /\ blank ws /\ decimal nt y /\
                              no_digit rest /\ (b = true <-> y <> 0%N)
  end.
Definition apply_setting (s : settings) (o : setting) : settings :=
  match o with
  | SThreads x => mkSet x (set_ops s) (set_runs s) (set_cap s) (set_file s) (set_recover s) (set_wipe s)
  | SOps x => mkSet (set_threads s) x (set_runs s) (set_cap s) (set_file s) (set_recover s) (set_wipe s)
  | SRuns x => mkSet (set_threads s) (set_ops s) x (set_cap s) (set_file s) (set_recover s) (set_wipe s)
  | SCap x => mkSet (set_threads s) (set_ops s) (set_runs s) x (set_file s) (set_recover s) (set_wipe s)
  | SFile f => mkSet (set_threads s) (set_ops s) (set_runs s) (set_cap s) f (set_recover s) (set_wipe s)
  | SRecover b => mkSet (set_threads s) (set_ops s) (set_runs s) (set_cap s) (set_file s) b (set_wipe s)
  | SWipe b => mkSet (set_threads s) (set_ops s) (set_runs s) (set_cap s) (set_file s) (set_recover s) b
  end.

(** The argument begins with an option. *)
Definition is_option (a : text) : Prop :=
  exists c rest, In c (txt "tnpcfrwh") /\ a = txt "-" ++ c :: rest.

(** What the option makes of any value: text that is no number counts as zero, a path without a word is empty. *)
Definition option_gets (o : setting) (v : text) : Prop :=
  option_value o v \/
  match o with
  | SThreads x | SOps x | SRuns x | SCap x => x = 0%N /\ ~ blank v /\ forall y, ~ begins_with v y
  | SFile f => f = [] /\ blank v
  | SRecover b | SWipe b => b = false /\ ~ blank v /\ forall y, ~ begins_with v y
  end.
(** How the command line ends, for every list of arguments. *)
Inductive command_line : list text -> settings -> hres cli -> Prop :=
| line_end s : command_line [] s (HOk (CRun s))
| line_help h rest s : command_line ((txt "-h" ++ h) :: rest) s (HOk CHelp)
| line_unknown a rest s : ~ is_option a -> command_line (a :: rest) s (HOk (CUnknown a))
| line_missing o x s : command_line [option_name o ++ x] s (HBad Throws)
| line_option o x v rest s r : option_gets o v -> command_line rest (apply_setting s o) r ->
    command_line ((option_name o ++ x) :: v :: rest) s r
| line_blank o x v rest s : (forall f, o <> SFile f) -> blank v -> command_line ((option_name o ++ x) :: v :: rest) s (HBad Uninit).

(** ** The random driver *)
(** The call for the value [v] and the choice [c]; two of eight choices make none. *)
Definition random_call (v c : N) : list cop :=
  match nth_error [CInsert v; CErase v; CContains v; CGet v; CCount; CIncrement v] (N.to_nat (c mod 8)) with
  | Some o => [o]
  | None => []
  end.

(** ** The barrier *)
(** How often the schedule runs thread [i]. *)
Definition turns (i : nat) (sched : list nat) : nat := List.length (List.filter (Nat.eqb i) sched).
