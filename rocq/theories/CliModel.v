(** The command line: /repo/src/bin/cdx/args.rs, globals.rs, main.rs, cdxmain.rs and the tables of options of the tools. *)
From Coq Require Import String List NArith Bool Arith.
Open Scope list_scope.
Import ListNotations.
From Verif Require Import Base TextModel ReadModel FormModel SortModel.
Open Scope nat_scope.

(** What ends a run before its end: CdxError::NoError and Silent, a broken pipe, any other error, /repo/src/util.rs:28-38 and 53-65. *)
Inductive stop := NoError | Silent | BrokenPipe | Other.
(** Result with the kind of error kept, /repo/src/util.rs:43, and a value for a panic. *)
Inductive out (A : Type) := Good (a : A) | Stop (s : stop) | Crash.
Arguments Good {A}. Arguments Stop {A}. Arguments Crash {A}.
Definition obind {A B} (x : out A) (f : A -> out B) : out B := match x with Good a => f a | Stop s => Stop s | Crash => Crash end. (* the [?] operator, e.g. /repo/src/bin/cdx/args.rs:177 *)
Definition of_res {A} (x : res A) : out A := match x with Ok a => Good a | Err => Stop Other | Panic => Crash end. (* err!, /repo/src/util.rs:20-24 *)

(** ArgSpec, /repo/src/bin/cdx/args.rs:81-89, without the help text. *)
Record spec := mkspec { o_name : bytes; o_short : bytes; o_value : bytes; o_values : list bytes; o_pos : bool }.
(** An occurrence on the command line as clap reports it, and ArgValue, /repo/src/bin/cdx/args.rs:91-106. clap::ArgMatches is modelled as the
    list of the occurrences in the order of the command line: values_of and indices_of pick those of a name. *)
Record occ := mkocc { oc_name : bytes; oc_value : bytes; oc_index : N }.
Definition named (n : bytes) (m : list occ) : list occ := filter (fun o => beq (oc_name o) n) m. (* values_of, indices_of: /repo/src/bin/cdx/args.rs:130 and 135-136 *)
(** get_arg, /repo/src/bin/cdx/args.rs:127-142. *)
Definition get_arg (m : list occ) (x : spec) : list occ :=
  match o_value x with
  | [] => map (fun o => mkocc (o_name x) [] (oc_index o)) (named (o_name x) m)
  | _ => map (fun o => mkocc (o_name x) (oc_value o) (oc_index o)) (named (o_name x) m)
  end.
Definition opt (n s v : string) (l : list string) (p : bool) : spec := mkspec (bs n) (bs s) (bs v) (map bs l) p. (* arg!, arg_pos!, arg_enum!: /repo/src/bin/cdx/args.rs:4-44 *)
(** The options of all tools, /repo/src/bin/cdx/globals.rs:15-26. *)
Definition global_args : list spec :=
  [opt "text-in" "" "Format" [] false; opt "text-out" "" "Format" [] false; opt "std-agg" "" "" [] false; opt "std-comp" "" "" [] false;
   opt "std-const" "" "" [] false; opt "std-func" "" "" [] false; opt "std-gen" "" "" [] false; opt "std-match" "" "" [] false;
   opt "std-text" "" "" [] false; opt "std-trans" "" "" [] false].
Definition shows : list bytes := (* the names at /repo/src/bin/cdx/globals.rs:86-109 that print something and end the run *)
  map bs ["std-agg"; "std-comp"; "std-const"; "std-func"; "std-gen"; "std-match"; "std-text"; "std-trans"]%string.
(** One turn of Settings::consume, /repo/src/bin/cdx/globals.rs:82-114. The value is a text; its characters are its bytes here, which is so for ASCII. *)
Definition consume1 (s : settings) (x : occ) : out settings :=
  if beq (oc_name x) (bs "text-in") then obind (of_res (form_new (oc_value x))) (fun f => Good (mkset f (se_out s)))
  else if beq (oc_name x) (bs "text-out") then obind (of_res (form_new (oc_value x))) (fun f => Good (mkset (se_in s) (Some f)))
  else if existsb (beq (oc_name x)) shows then Stop NoError
  else if beq (oc_name x) (bs "foo") then Good s else Crash.
Fixpoint consume (s : settings) (v : list occ) : out settings := (* /repo/src/bin/cdx/globals.rs:80-117 *)
  match v with [] => Good s | x :: r => obind (consume1 s x) (fun s => consume s r) end.
(** FileCount, /repo/src/bin/cdx/args.rs:46-51. *)
Inductive fcount := FZero | FOne | FMany.
Definition by_index (a b : occ) : comparison := N.compare (oc_index a) (oc_index b). (* /repo/src/bin/cdx/args.rs:199 *)
(** parse, /repo/src/bin/cdx/args.rs:144-201, from what clap has made of the command line: the settings, the options in order, the files. *)
Definition parse (c : fcount) (sp : list spec) (m : list occ) (s : settings) : out (settings * list occ * list bytes) :=
  if negb (Nat.eqb (List.length (named (bs "std-help") m)) 0) then Stop NoError
  else obind (consume s (flat_map (get_arg m) global_args)) (fun s =>
       let v := flat_map (get_arg m) sp in
       let files := match c with FZero => [] | _ => map oc_value (named (bs "input_files") m) end in
       let files := match c, files with FZero, _ => files | _, [] => [bs "-"] | _, _ => files end in
       Good (s, std_sort by_index v, files)).

(** The loop over the options at the head of each tool, e.g. /repo/src/bin/cdx/cut_main.rs:17-33: an arm for each name it knows, else unreachable. *)
Fixpoint handle {S} (known : list bytes) (arm : bytes -> bytes -> S -> out S) (s : S) (args : list occ) : out S :=
  match args with
  | [] => Good s
  | x :: r => if existsb (beq (oc_name x)) known then obind (arm (oc_name x) (oc_value x) s) (fun s => handle known arm s r) else Crash
  end.
(** A tool: its name, the files it takes, its table of options, and the names its loop knows. *)
Record tool_spec := mktool { t_name : bytes; t_files : fcount; t_opts : list spec; t_known : list bytes }. (* OneMain, /repo/src/bin/cdx/cdxmain.rs:4-9 *)
Definition binsearch_tool : tool_spec := (* /repo/src/bin/cdx/binsearch_main.rs:92-96 and 107-126 *)
  mktool (bs "binsearch") FMany
  [opt "key" "k" "Spec" []%list false;
   opt "filename" "H" "ColName:Parts" []%list false;
   opt "context" "C" "before,after" []%list false;
   opt "sub-delim" "s" "Char" []%list false;
   opt "pattern" "" "search string" []%list true]
  (map bs ["key"; "filename"; "context"; "subdelim"; "pattern"]%string).
Definition calc_tool : tool_spec := (* /repo/src/bin/cdx/calc_main.rs:10-10 and 14-17 *)
  mktool (bs "calc") FMany
  [opt "fmt" "f" "Format" []%list false]
  (map bs ["fmt"]%string).
Definition cat_tool : tool_spec := (* /repo/src/bin/cdx/cat_main.rs:83-88 and 98-119 *)
  mktool (bs "cat") FMany
  [opt "pad" "p" "Mode" ["Yes"; "No"; "End"]%string false;
   opt "remove" "r" "Matcher" []%list false;
   opt "skip" "s" "Matcher" []%list false;
   opt "number" "n" "Name,Start,Where" []%list false;
   opt "begin" "b" "" []%list false;
   opt "end" "e" "" []%list false]
  (map bs ["pad"; "number"; "begin"; "end"; "skip"; "remove"]%string).
Definition cgrep_tool : tool_spec := (* /repo/src/bin/cdx/cgrep_main.rs:9-14 and 22-37 *)
  mktool (bs "cgrep") FMany
  [opt "pattern" "p" "Col,Spec,Pattern" []%list false;
   opt "show-const" "" "" []%list false;
   opt "show-func" "" "" []%list false;
   opt "or" "o" "" []%list false;
   opt "invert" "v" "" []%list false;
   opt "location" "l" "name:what" []%list false]
  (map bs ["pattern"; "or"; "invert"; "location"; "show-const"; "show-func"]%string).
Definition cut_tool : tool_spec := (* /repo/src/bin/cdx/cut_main.rs:8-12 and 18-31 *)
  mktool (bs "cut") FMany
  [opt "fields" "f" "Columns" []%list false;
   opt "group" "g" "Columns" []%list false;
   opt "expr" "e" "Name:Expr" []%list false;
   opt "composite" "c" "Spec" []%list false;
   opt "dups" "D" "Mode" ["Fail"; "Allow"; "Numeric"]%string false]
  (map bs ["dups"; "fields"; "group"; "expr"; "composite"]%string).
Definition filegen_tool : tool_spec := (* /repo/src/bin/cdx/filegen_main.rs:7-10 and 19-37 *)
  mktool (bs "filegen") FZero
  [opt "lines" "n" "Number" []%list false;
   opt "column" "c" "Spec" []%list false;
   opt "multi" "m" "N,Spec" []%list false;
   opt "with-header" "h" "" []%list false]
  (map bs ["lines"; "with-header"; "column"; "multi"]%string).
Definition join_tool : tool_spec := (* /repo/src/bin/cdx/join_main.rs:8-11 and 18-62 *)
  mktool (bs "join") FMany
  [opt "also" "a" "FileNum,FileName" []%list false;
   opt "file" "f" "OutputFile" []%list false;
   opt "key" "k" "Spec" []%list false;
   opt "output" "o" "Spec" []%list false]
  (map bs ["key"; "output"; "file"; "also"]%string).
Definition paste_tool : tool_spec := (* /repo/src/bin/cdx/paste_main.rs:31-36 and 46-59 *)
  mktool (bs "paste") FMany
  [opt "end" "e" "Mode" ["Exact"; "Early"; "Late"]%string false;
   opt "default" "d" "ScopedValue" []%list false;
   opt "last" "l" "" []%list false;
   opt "rename" "r" "old.new,..." []%list false;
   opt "rename-sloppy" "R" "" []%list false;
   opt "dups" "D" "Mode" ["Fail"; "Allow"; "Numeric"]%string false]
  (map bs ["end"; "default"; "dups"; "rename"; "rename-sloppy"; "last"]%string).
Definition sample_tool : tool_spec := (* /repo/src/bin/cdx/sample_main.rs:89-91 and 104-125 *)
  mktool (bs "sample") FMany
  [opt "for" "f" "by,from,to" []%list false;
   opt "sample" "s" "Number" []%list false;
   opt "range" "r" "Ranges" []%list false]
  (map bs ["for"; "range"; "sample"]%string).
Definition sort_tool : tool_spec := (* /repo/src/bin/cdx/sort_main.rs:9-15 and 26-45 *)
  mktool (bs "sort") FMany
  [opt "key" "k" "Spec" []%list false;
   opt "unique" "u" "" []%list false;
   opt "merge" "m" "" []%list false;
   opt "check" "c" "" []%list false;
   opt "Check" "C" "Number" []%list false;
   opt "alt-sort" "a" "" []%list false;
   opt "alt-merge" "A" "" []%list false]
  (map bs ["key"; "alt-merge"; "alt-sort"; "merge"; "check"; "Check"; "unique"]%string).
Definition tabs_tool : tool_spec := (* /repo/src/bin/cdx/tabs_main.rs:16-16 and 22-25 *)
  mktool (bs "tabs") FMany
  [opt "end" "e" "" []%list false]
  (map bs ["end"]%string).
Definition tooltest_tool : tool_spec := (* /repo/src/bin/cdx/tooltest_main.rs:8-11 and 17-27 *)
  mktool (bs "tooltest") FMany
  [opt "verbose" "v" "" []%list false;
   opt "bin" "b" "Dir" []%list false;
   opt "tmp" "t" "Dir" []%list false;
   opt "file-format" "" "" []%list false]
  (map bs ["bin"; "verbose"; "tmp"; "file-format"]%string).
Definition transpose_tool : tool_spec := (* /repo/src/bin/cdx/transpose_main.rs:7-8 and 15-22 *)
  mktool (bs "transpose") FOne
  [opt "head" "h" "" []%list false;
   opt "lines" "n" "Number" []%list false]
  (map bs ["head"; "lines"]%string).
Definition uniq_tool : tool_spec := (* /repo/src/bin/cdx/uniq_main.rs:158-164 and 173-186 *)
  mktool (bs "uniq") FOne
  [opt "agg" "a" "Col,Spec" []%list false;
   opt "agg-pre" "" "NewCol,SrcCol,Spec" []%list false;
   opt "agg-post" "" "NewCol,SrcCol,Spec" []%list false;
   opt "key" "k" "Spec" []%list false;
   opt "count" "c" "ColName,Position" []%list false;
   opt "which" "w" "(First,Last,Min,Max)[,LineCompare]" []%list false;
   opt "agg-help" "" "" []%list false]
  (map bs ["key"; "count"; "which"; "agg"; "agg-post"; "agg-pre"]%string).
Definition verify_tool : tool_spec := (* /repo/src/bin/cdx/verify_main.rs:23-32 and 45-69 *)
  mktool (bs "verify") FMany
  [opt "report" "r" "Number" []%list false;
   opt "first" "f" "Op,Value" []%list false;
   opt "last" "l" "Op,Value" []%list false;
   opt "key" "k" "Spec" []%list false;
   opt "sort" "s" "" []%list false;
   opt "unique" "u" "" []%list false;
   opt "pattern" "p" "Col,Spec,Pattern" []%list false;
   opt "show-matchers" "" "" []%list false;
   opt "show-const" "" "" []%list false;
   opt "show-func" "" "" []%list false]
  (map bs ["pattern"; "key"; "or"; "fail"; "sort"; "first"; "last"; "unique"; "show-const"; "show-func"]%string).
Definition wc_tool : tool_spec := (* /repo/src/bin/cdx/wc_main.rs:25-34 and 47-77 *)
  mktool (bs "wc") FMany
  [opt "agg" "a" "NewCol,Spec" []%list false;
   opt "lines" "l" "" []%list false;
   opt "bytes" "b" "" []%list false;
   opt "chars" "c" "" []%list false;
   opt "words" "w" "" []%list false;
   opt "file" "f" "Tri,ColName" []%list false;
   opt "with-header" "h" "Tri" []%list false;
   opt "total" "t" "yes,no,maybe,only" []%list false;
   opt "format" "F" "plain,float,power2,power10" []%list false;
   opt "columns" "C" "" []%list false]
  (map bs ["agg"; "lines"; "bytes"; "chars"; "words"; "format"; "columns"; "total"; "with-header"; "file"]%string).
Definition main_list : list tool_spec := (* MAINLIST, /repo/src/bin/cdx/cdxmain.rs:26-43 *)
  [binsearch_tool; calc_tool; cat_tool; cgrep_tool; cut_tool; filegen_tool; join_tool; paste_tool; sample_tool; sort_tool; tabs_tool; tooltest_tool; transpose_tool; uniq_tool; verify_tool; wc_tool].
(** What cdx does with its arguments, /repo/src/bin/cdx/main.rs:51-82. *)
Inductive act := AUsage | AHelp | AVersion | ATool (name : bytes) (argv : list bytes) | AUnknown.
Definition inner_act (argv : list bytes) : act :=
  match argv with
  | a0 :: a1 :: rest =>
      if beq a1 (bs "help") || beq a1 (bs "--help") then AHelp
      else if beq a1 (bs "version") || beq a1 (bs "--version") then AVersion
      else match find (fun t => beq a1 (t_name t)) main_list with
           | Some t => ATool (t_name t) ((a0 ++ bs " " ++ a1) :: rest)
           | None => AUnknown
           end
  | _ => AUsage
  end.
Definition inner_main (procs : bytes -> list bytes -> out unit) (argv : list bytes) : out unit := (* /repo/src/bin/cdx/main.rs:51-82 *)
  match inner_act argv with
  | AUsage | AUnknown => Stop Silent
  | AHelp | AVersion => Good tt
  | ATool n a => procs n a
  end.
(** main, /repo/src/bin/cdx/main.rs:27-49: the exit code, and whether an error is reported; 101 is the code of a panic. *)
Definition exit_code (r : out unit) : N * bool :=
  match r with
  | Good _ => (0%N, false)
  | Stop NoError | Stop BrokenPipe => (0%N, false)
  | Stop Silent => (1%N, false)
  | Stop Other => (1%N, true)
  | Crash => (101%N, true)
  end.
