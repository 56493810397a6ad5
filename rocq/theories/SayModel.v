(** The process log of the library and standard output. *)
From Coq Require Import Ascii String List Arith NArith Bool.
From Verif Require Import StrModel FramerModel LogModel.
Import ListNotations.
Local Open Scope nat_scope.

(** enum class LogLevel, include/logging/Logger.h:50-56. LOG_FATAL also ends the process, 287; the library does not use it. *)
Inductive grade := GDebug | GInfo | GWarn | GError | GFatal.
Definition rank_of (g : grade) : nat := match g with GDebug => 0 | GInfo => 1 | GWarn => 2 | GError => 3 | GFatal => 4 end.

(** The name each macro passes, Logger.h:283-287. *)
Definition grade_name (g : grade) : bstr :=
  match g with GDebug => bs "DEBUG" | GInfo => bs "INFO" | GWarn => bs "WARN" | GError => bs "ERROR" | GFatal => bs "FATAL" end.

(** The macros, Logger.h:283-286: logged if the threshold is at most the level. *)
Definition shown (threshold g : grade) : bool := Nat.leb (rank_of threshold) (rank_of g).

(** Logger::parseLogLevel, Logger.h:170-189. *)
Definition parse_grade (lvl : bstr) : grade :=
  let s := map upper lvl in
  if beq s (bs "DEBUG") then GDebug else
  if beq s (bs "INFO") then GInfo else
  if beq s (bs "WARN") then GWarn else
  if beq s (bs "ERROR") then GError else
  if beq s (bs "FATAL") then GFatal else
  if beq s (bs "WARNING") then GWarn else GInfo.

(** GetEnvOrDefault, include/env/EnvVars.h:20-25; None: the variable is not set. *)
Definition env_or (v : option bstr) (d : bstr) : bstr := match v with Some x => x | None => d end.

(** The two switches, Logger.h:237-240 and 255-258. *)
Definition yes (v : bstr) : bool := beq v (bs "1") || beq v (bs "true") || beq v (bs "TRUE").

(** The variables MCP_STDIO_MODE and MCP_LOG_COLOR, and the threshold (INFO unless set, src/logging/Logger.cpp:11). *)
Record saycfg := { sy_mode : option bstr; sy_color : option bstr; sy_level : grade }.
Definition saycfg0 : saycfg := {| sy_mode := None; sy_color := None; sy_level := GInfo |}.
Definition to_stderr (c : saycfg) : bool := yes (env_or (sy_mode c) (bs "0")).
Definition coloured (c : saycfg) : bool := yes (env_or (sy_color c) (bs "1")).

(** Logger::log, Logger.h:233-252: the text of an entry. *)
Definition ESC : ascii := chr 27.
Definition label_color (level : bstr) : bstr := if starts_with (bs "ERROR") level then ESC :: bs "[38;5;88m" else ESC :: bs "[35m".
Definition entry_text (color : bool) (level file : bstr) (line : N) (msg : bstr) : bstr :=
  bs "[" ++ (if color then label_color level ++ level ++ (ESC :: bs "[0m") else level) ++ bs "] " ++
  file ++ bs ":" ++ print_N line ++ bs ": " ++ msg ++ [LF].

(** An entry as the code makes it. *)
Record entry := { en_grade : grade; en_file : bstr; en_line : N; en_msg : bstr }.
Definition text_of (c : saycfg) (e : entry) : bstr := entry_text (coloured c) (grade_name (en_grade e)) (en_file e) (en_line e) (en_msg e).

(** sp_out, sp_err: the bytes on descriptors 1 and 2. sp_cout: what std::cout holds back (nothing flushes it: the std::endl of line
    247 goes to the string stream). sp_left: the bytes of accepted frames that the writer has still to write,
    StdioTransport.cpp:820-870. sp_file: the log file. *)
Record sayst := { sp_out : bstr; sp_err : bstr; sp_cout : bstr; sp_left : bstr; sp_file : bstr }.
Definition sayst0 : sayst := {| sp_out := []; sp_err := []; sp_cout := []; sp_left := []; sp_file := [] |}.

(** Send: a message is accepted and framed. Write n: the writer's write() takes n bytes. Log: a LOG_ macro. Flush n: the
    C++ library passes n bytes of std::cout on, which it may do at any time. *)
Inductive sayev := Send (p : bstr) | Write (n : nat) | Log (e : entry) | Flush (n : nat).

(** Logger.h:254-270 under sLogMutex; a log file is taken to be open. *)
Definition saystep (c : saycfg) (s : sayst) (v : sayev) : sayst :=
  match v with
  | Send p => {| sp_out := sp_out s; sp_err := sp_err s; sp_cout := sp_cout s; sp_left := sp_left s ++ encode p; sp_file := sp_file s |}
  | Write n => {| sp_out := sp_out s ++ firstn n (sp_left s); sp_err := sp_err s; sp_cout := sp_cout s;
                  sp_left := skipn n (sp_left s); sp_file := sp_file s |}
  | Log e =>
      if shown (sy_level c) (en_grade e) then
        let t := text_of c e in
        if to_stderr c
        then {| sp_out := sp_out s; sp_err := sp_err s ++ t; sp_cout := sp_cout s; sp_left := sp_left s; sp_file := sp_file s ++ t |}
        else {| sp_out := sp_out s; sp_err := sp_err s; sp_cout := sp_cout s ++ t; sp_left := sp_left s; sp_file := sp_file s ++ t |}
      else s
  | Flush n => {| sp_out := sp_out s ++ firstn n (sp_cout s); sp_err := sp_err s; sp_cout := skipn n (sp_cout s);
                  sp_left := sp_left s; sp_file := sp_file s |}
  end.
Definition sayrun (c : saycfg) (vs : list sayev) : sayst := fold_left (saystep c) vs sayst0.
