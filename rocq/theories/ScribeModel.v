(** The log file and the level of the process log, which may change while the process runs. *)
From Coq Require Import Ascii String List Arith NArith Bool.
From Verif Require Import StrModel FramerModel LogModel SayModel.
Import ListNotations.
Local Open Scope nat_scope.

(** What std::vformat makes of a format and its arguments: a text, or a format_error. *)
Inductive formatted := Formatted (t : bstr) | FormatError (what : bstr).

(** Logger::logf, include/logging/Logger.h:82-104 (the part for Windows is left out). *)
Definition message_of (f : formatted) : bstr := match f with Formatted t => t | FormatError what => bs "Format error: " ++ what end.

(** Logger::sLogLevel; the path of sLogFile if it is open, and whether its badbit is set; what is
    in the files of the system; what was written to the console. *)
Record scribe := { sc_level : grade; sc_open : option bstr; sc_bad : bool; sc_disk : bstr -> bstr; sc_console : bstr }.

(** LOG_INFO_LEVEL, src/logging/Logger.cpp:11; no file. *)
Definition scribe0 (disk : bstr -> bstr) : scribe :=
  {| sc_level := GInfo; sc_open := None; sc_bad := false; sc_disk := disk; sc_console := [] |}.

Definition append_to (p t : bstr) (disk : bstr -> bstr) : bstr -> bstr := fun q => if beq p q then disk q ++ t else disk q.

(** SLevel: setLogLevel, Logger.h:163-165. SFile p ok stamp: setLogFile(p), 196-231; ok: the file could be opened;
    stamp: the local time, or errno if not. SLog: one of the macros, 283-286; took: how many bytes the system takes
    of the entry, all of them if None. A stream that failed writes nothing until it is opened again:
    a successful open clears its state. *)
Inductive sevent :=
| SLevel (g : grade)
| SFile (p : bstr) (ok : bool) (stamp : bstr)
| SLog (g : grade) (file : bstr) (line : N) (f : formatted) (took : option nat).

(** Logger.h:216-229; this write is taken to succeed. *)
Definition mark (stamp : bstr) : bstr := LF :: bs "=== Log opened at " ++ stamp ++ bs " ===" ++ [LF].
(** Logger.h:214: to standard error. *)
Definition no_file (p errno : bstr) : bstr := bs "[ERROR] Failed to open log file: " ++ p ++ bs " (errno=" ++ errno ++ bs ")" ++ [LF].

Definition scribe_step (color : bool) (s : scribe) (v : sevent) : scribe :=
  match v with
  | SLevel g => {| sc_level := g; sc_open := sc_open s; sc_bad := sc_bad s; sc_disk := sc_disk s; sc_console := sc_console s |}
  | SFile p true stamp =>
      {| sc_level := sc_level s; sc_open := Some p; sc_bad := false; sc_disk := append_to p (mark stamp) (sc_disk s); sc_console := sc_console s |}
  | SFile p false stamp =>
      {| sc_level := sc_level s; sc_open := None; sc_bad := false; sc_disk := sc_disk s; sc_console := sc_console s ++ no_file p stamp |}
  | SLog g file line f took =>
      if shown (sc_level s) g then
        let t := entry_text color (grade_name g) file line (message_of f) in
        match sc_open s with
        | Some p =>
            if sc_bad s
            then {| sc_level := sc_level s; sc_open := sc_open s; sc_bad := true; sc_disk := sc_disk s; sc_console := sc_console s ++ t |}
            else {| sc_level := sc_level s; sc_open := sc_open s;
                    sc_bad := match took with Some _ => true | None => false end;
                    sc_disk := append_to p (match took with Some n => firstn n t | None => t end) (sc_disk s); sc_console := sc_console s ++ t |}
        | None => {| sc_level := sc_level s; sc_open := None; sc_bad := sc_bad s; sc_disk := sc_disk s; sc_console := sc_console s ++ t |}
        end
      else s
  end.
Definition scribe_run (color : bool) (disk : bstr -> bstr) (vs : list sevent) : scribe := fold_left (scribe_step color) vs (scribe0 disk).
