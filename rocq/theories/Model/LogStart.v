(** Model of how the log comes up and of what reaches the stream (src/log.cpp
    48-113, include/fastcgi++/log.hpp 77-159), one thread.

    Left to the environment: the name of the host and of the program, the
    bytes of the buffer nobody wrote, the text of the process id, the dates,
    which characters the stream can write, what is logged when.  [suppress]
    is the same throughout.  Not modelled: FAIL_LOG's exit (Model/Log.v has
    it), the mutex (likewise), failing allocations, and other streams than
    one that writes character by character such as [std::wcerr]. *)
From Coq Require Import String List NArith Bool.
From Verif Require Import Model.Base Model.Log Model.Curl.
Import ListNotations.

(** The objects of log.cpp 89-105 ([None], [false]: not yet constructed), what
    was written to the stream, and whether its [badbit] is set. *)
Record logging := mkLogging {
  g_levels : bool;
  g_host : option (list N);
  g_program : option (list N);
  g_out : list N;
  g_bad : bool
}.

(** log.cpp 101-103: before any dynamic initialisation. *)
Definition unstarted : logging := mkLogging false None None [] false.

(** A use of a logging macro, log.hpp 77-159: the date, the level, the text. *)
Definition use := (list N * level * list N)%type.

Section LogStart.
(** Which characters the stream can write in its locale. *)
Variable can : N -> bool.
Variable built : N.
Variable suppress : bool.

(** External, libstdc++'s [stdio_sync_filebuf::xsputn]: what is written of a
    text, and whether that is not all of it. *)
Fixpoint taken (s : list N) : list N * bool :=
  match s with
  | [] => ([], false)
  | c :: r => if can c then let '(t, bad) := taken r in (c :: t, bad) else ([], true)
  end.

(** External, [operator<<] for texts: nothing if the stream is bad. *)
Definition put (s : list N) (g : logging) : logging :=
  if g_bad g then g else
  let '(t, bad) := taken s in
  mkLogging (g_levels g) (g_host g) (g_program g) (g_out g ++ t) bad.

(** log.cpp 107-113.  Using an object before it is constructed is undefined. *)
Definition header (date : list N) (l : level) (g : logging) : outcome logging :=
  match g_levels g, g_host g, g_program g with
  | true, Some h, Some p =>
      Val (put (level_text l) (put (lit " ") (put p (put (lit " ") (put h (put date g))))))
  | _, _, _ => UB
  end.

(** log.hpp 77-159: a macro, [std::endl] included. *)
Definition use_macro (u : use) (g : logging) : outcome logging :=
  let '(date, l, text) := u in
  if negb (compiled built l) || (heeds l && suppress) then Val g
  else obind (header date l g) (fun g => Val (put [10%N] (put text g))).

(** Auxiliary, no counterpart in the code: one use after another. *)
Fixpoint uses (l : list use) (g : logging) : outcome logging :=
  match l with
  | [] => Val g
  | u :: l => obind (use_macro u g) (uses l)
  end.

(** Environment: glibc's [gethostname] with the buffer of log.cpp 51-52
    (HOST_NAME_MAX is 64): as much of the name and its NUL as fits. *)
Definition host_buffer (name junk : list N) : list N := firstn (64 + 2) (name ++ [0%N] ++ junk).

(** [strlen], log.cpp 58: the text up to the NUL; without one it reads past
    the end. *)
Fixpoint c_string (buffer : list N) : outcome (list N) :=
  match buffer with
  | [] => UB
  | c :: r => if N.eqb c 0 then Val [] else obind (c_string r) (fun s => Val (c :: s))
  end.

Variable strict : bool.
(** The date of a warning while the log comes up. *)
Variable date : list N.

(** log.cpp 49-67. *)
Definition getHostname (name junk : list N) (g : logging) : outcome (list N * logging) :=
  obind (c_string (host_buffer name junk)) (fun b =>
  match from_bytes strict b with
  | Some u => Val (u, g)
  | None =>
      obind (use_macro (date, LWarning, lit "Error in hostname code conversion from utf8") g)
        (fun g => Val (lit "localhost", g))
  end).

(** log.cpp 69-87.  Simplified: [pid] is what [operator<<] makes of the
    process id. *)
Definition getProgram (name pid : list N) (g : logging) : outcome (list N * logging) :=
  obind (match from_bytes strict name with
         | Some u => Val (u, g)
         | None =>
             obind (use_macro (date, LWarning, lit "Error in program name code conversion from utf8") g)
               (fun g => Val (lit "unknown", g))
         end)
    (fun '(u, g) => Val (u ++ lit "[" ++ pid ++ lit "]", g)).

(** The dynamic initialisation of log.cpp 89-105, in the order of the
    definitions. *)
Definition start (host junk prog pid : list N) (g : logging) : outcome logging :=
  let g := mkLogging true (g_host g) (g_program g) (g_out g) (g_bad g) in
  obind (getHostname host junk g) (fun '(h, g) =>
  let g := mkLogging (g_levels g) (Some h) (g_program g) (g_out g) (g_bad g) in
  obind (getProgram prog pid g) (fun '(p, g) =>
  Val (mkLogging (g_levels g) (g_host g) (Some p) (g_out g) (g_bad g)))).

(** The whole program: [before] is what the initialisers of other objects log
    that happen to run before those of log.cpp 89-105, [after] everything else. *)
Definition log_program (before : list use) (host junk prog pid : list N) (after : list use) : outcome logging :=
  obind (uses before unstarted) (fun g =>
  obind (start host junk prog pid g) (uses after)).
End LogStart.
