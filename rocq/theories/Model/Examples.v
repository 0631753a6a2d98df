(** Model of two of the example applications (examples/helloworld.cpp,
    examples/echo.cpp). *)
From Coq Require Import String List NArith ZArith Bool.
From Verif Require Import Model.Base Model.WebMaps Model.Streams Model.Environment Model.Request.
Import ListNotations.
Local Open Scope N_scope.

(** A wide literal: the compiler decodes the UTF-8 of the source text. *)
Fixpoint wide_lit (b : list N) : list N :=
  match b with
  | [] => []
  | x :: r =>
      if x <? 0x80 then x :: wide_lit r
      else if x <? 0xe0 then
        match r with
        | y :: r' => ((x - 0xc0) * 64 + (y - 0x80)) :: wide_lit r'
        | _ => []
        end
      else if x <? 0xf0 then
        match r with
        | y :: z :: r' => ((x - 0xe0) * 4096 + (y - 0x80) * 64 + (z - 0x80)) :: wide_lit r'
        | _ => []
        end
      else
        match r with
        | y :: z :: t :: r' =>
            ((x - 0xf0) * 262144 + (y - 0x80) * 4096 + (z - 0x80) * 64 + (t - 0x80)) :: wide_lit r'
        | _ => []
        end
  end.

(** [out << L"..."]. *)
Definition w (s : string) : sop := OpWrite (wide_lit (lit s)).

(** [out << Encoding::HTML << s << Encoding::NONE]. *)
Definition shown (s : list N) : list sop := [OpEnc E_HTML; OpWrite s; OpEnc E_NONE].

(** The end of the header of the reply: helloworld.cpp 13, echo.cpp 26. *)
Definition crlf2 : sop := OpWrite [13; 10; 13; 10].

(** helloworld.cpp 9-39. *)
Definition hello_ops : list sop :=
  [w "Content-Type: text/html; charset=utf-8"; crlf2;
   w "<!DOCTYPE html>"; OpWrite [10];
   w "<html><head><meta charset='utf-8' /><title>fastcgi++: Hello World</title></head><body><p>";
   w "English: Hello World<br>";
   w "Russian: Привет мир<br>";
   w "Greek: Γεια σας κόσμο<br>";
   w "Chinese: 世界您好<br>";
   w "Japanese: 今日は世界<br>";
   w "Runic English?: ᚺᛖᛚᛟ ᚹᛟᛉᛚᛞ<br>";
   w "</p></body></html>"].

(** An application that overrides [response] alone, writes to [out] and
    returns true (helloworld.cpp 5-40, echo.cpp 6-236).  Writing to a stream
    does not change the environment. *)
Definition page_app (ops : env -> list sop) : application unit :=
  mkApp (fun c u =>
           match c with
           | CResponse e _ => (u, e, map (pair false) (ops e), true)
           | _ => default_call c u
           end)
        (fun _ => (true, true)).

(** helloworld.cpp 5-40: the application. *)
Definition hello : application unit := page_app (fun _ => hello_ops).

Section Echo.
(** What the standard library makes of a number, a time
    ([put_time(gmtime(..))]) and a narrow text on a wide stream, what
    [operator<<] makes of an address, and the version of the library. *)
Variable dec : N -> list N.
Variable time_text : Z -> list N.
Variable widen : list N -> list N.
Variable address_out : list N -> list N.
Variable version : list N.

(** http.cpp 777-789 and http.hpp 104-110: [requestMethodLabels]; the index
    is in range for every method. *)
Definition method_label (m : N) : list N :=
  lit (nth (N.to_nat m)
    ["ERROR"; "HEAD"; "GET"; "POST"; "PUT"; "DELETE"; "TRACE"; "OPTIONS"; "CONNECT"; "PATCH"]%string ""%string).

(** echo.cpp 24-26: the header. *)
Definition echo_header : list sop :=
  [w "Set-Cookie: echoCookie="; OpEnc E_URL; OpWrite ([60; 34] ++ wide_lit (lit "русский") ++ [34; 62; 59]);
   OpEnc E_NONE; w "; path=/"; OpWrite [10];
   w "Content-Type: text/html; charset=utf-8"; crlf2].

(** echo.cpp 58-69: the languages with commas between. *)
Fixpoint echo_languages (l : list (list N)) : list sop :=
  match l with
  | [] => []
  | [x] => [OpWrite (widen x)]
  | x :: l' => [OpWrite (widen x); OpWrite [44]] ++ echo_languages l'
  end.

(** echo.cpp 30-98: the parameters of the environment. *)
Definition echo_environment (e : env) : list sop :=
  [w "<!DOCTYPE html>"; OpWrite [10];
   w "<html><head><meta charset='utf-8' /><title>fastcgi++: Echo</title></head><body><h1>Echo</h1>";
   w "<h2>Environment Parameters</h2><p><b>FastCGI Version:</b> "; OpWrite (dec 1);
   w "<br /><b>fastcgi++ Version:</b> "; OpWrite (widen version);
   w "<br /><b>Hostname:</b> "] ++ shown (e_host e) ++
  [w "<br /><b>Origin Server:</b> "] ++ shown (e_origin e) ++
  [w "<br /><b>User Agent:</b> "] ++ shown (e_userAgent e) ++
  [w "<br /><b>Accepted Content Types:</b> "] ++ shown (e_acceptContentTypes e) ++
  [w "<br /><b>Accepted Languages:</b> "] ++
  ([OpEnc E_HTML] ++ echo_languages (e_acceptLanguages e) ++ [OpEnc E_NONE]) ++
  [w "<br /><b>Accepted Characters Sets:</b> "] ++ shown (e_acceptCharsets e) ++
  [w "<br /><b>Referer:</b> "] ++ shown (e_referer e) ++
  [w "<br /><b>Content Type:</b> "] ++ shown (e_contentType e) ++
  [w "<br /><b>Root:</b> "] ++ shown (e_root e) ++
  [w "<br /><b>Script Name:</b> "] ++ shown (e_scriptName e) ++
  [w "<br /><b>Request URI:</b> "] ++ shown (e_requestUri e) ++
  [w "<br /><b>Request Method:</b> "; OpWrite (widen (method_label (e_requestMethod e)));
   w "<br /><b>Content Length:</b> "; OpWrite (dec (e_contentLength e));
   w " bytes<br /><b>Keep Alive Time:</b> "; OpWrite (dec (e_keepAlive e));
   w " seconds<br /><b>Server Address:</b> "; OpWrite (address_out (e_serverAddress e));
   w "<br /><b>Server Port:</b> "; OpWrite (dec (e_serverPort e));
   w "<br /><b>Client Address:</b> "; OpWrite (address_out (e_remoteAddress e));
   w "<br /><b>Client Port:</b> "; OpWrite (dec (e_remotePort e));
   w "<br /><b>Etag:</b> "; OpWrite (dec (e_etag e));
   w "<br /><b>If Modified Since:</b> "] ++ shown (time_text (e_ifModifiedSince e)) ++
  [w "</p>"].

(** echo.cpp 102-120: the path, each element further to the right. *)
Fixpoint echo_elements (tab : nat) (l : list (list N)) : list sop :=
  match l with
  | [] => []
  | x :: l' =>
      [OpWrite (concat (repeat (lit "&nbsp;&nbsp;&nbsp;&nbsp;") tab))] ++ shown x ++ [w "<br />"]
      ++ echo_elements (S tab) l'
  end.

(** echo.cpp 102-120. *)
Definition echo_path (l : list (list N)) : list sop :=
  [w "<h2>Path Info</h2>"] ++
  match l with
  | [] => [w "<p>No Path Info</p>"]
  | _ => [w "<p>"] ++ echo_elements 0 l ++ [w "</p>"]
  end.

(** echo.cpp 124-172: a table of names and values, or a text if it is
    empty. *)
Definition echo_pair (p : list N * list N) : list sop :=
  [w "<b>"] ++ shown (fst p) ++ [w ":</b> "] ++ shown (snd p) ++ [w "<br />"].

(** echo.cpp 124-133, 137-146, 150-159 and the like: one section. *)
Definition echo_table (title none : string) (l : list (list N * list N)) : list sop :=
  [w title] ++ match l with [] => [w none] | _ => flat_map echo_pair l end.

(** echo.cpp 176-202: the files; [dump] writes the data as they are. *)
Definition echo_file (f : list N * (list N * list N * list N)) : list sop :=
  match f with
  | (name, (filename, contentType, data)) =>
      [w "<h3>"] ++ shown name ++ [w "</h3><p><b>Filename:</b> "] ++ shown filename ++
      [w "<br /><b>Content Type:</b> "] ++ shown contentType ++
      [w "<br /><b>Size:</b> "; OpWrite (dec (N.of_nat (length data))); w "<br /><b>Data:</b></p><pre>";
       OpDump data; w "</pre>"]
  end.

(** echo.cpp 176-202. *)
Definition echo_files (l : list (list N * (list N * list N * list N))) : list sop :=
  [w "<h2>Files</h2>"] ++ match l with [] => [w "<p>No files</p>"] | _ => flat_map echo_file l end.

(** echo.cpp 206-232: the forms and the end of the page. *)
Definition echo_forms : list sop :=
  [w "<h1>Form</h1><h3>multipart/form-data</h3><form action='?getVar=testing&amp;secondGetVar=tested&amp;utf8GetVarTest=проверка&amp;enctype=multipart' method='post' enctype='multipart/form-data' accept-charset='utf-8'>Name: <input type='text' name='+= aquí está el campo' value='Él está con un niño' /><br />File: <input type='file' name='aFile' /> <br /><input type='submit' name='submit' value='submit' /></form>";
   w "<h3>application/x-www-form-urlencoded</h3><form action='?getVar=testing&amp;secondGetVar=tested&amp;utf8GetVarTest=проверка&amp;enctype=url-encoded' method='post' enctype='application/x-www-form-urlencoded' accept-charset='utf-8'>Name: <input type='text' name='+= aquí está el campo' value='Él está con un niño' /><br />File: <input type='file' name='aFile' /><br /><input type='submit' name='submit' value='submit' /></form>";
   w "</body></html>"].

(** echo.cpp 16-235: the whole reply. *)
Definition echo_ops (e : env) : list sop :=
  echo_header ++ echo_environment e ++ echo_path (e_pathInfo e) ++
  echo_table "<h2>Other Environment Parameters</h2>" "<p>No Other Environment Parameters</p>" (e_others e) ++
  echo_table "<h2>GET Data</h2>" "<p>No GET data</p>" (e_gets e) ++
  echo_table "<h2>POST Data</h2>" "<p>No POST data</p>" (e_posts e) ++
  echo_table "<h2>Cookies</h2>" "<p>No Cookies</p>" (e_cookies e) ++
  echo_files (e_files e) ++ echo_forms.

(** echo.cpp 6-236; the constructor's maximum for a body is 5*1024. *)
Definition echo : application unit := page_app echo_ops.
Definition echo_max : N := 5 * 1024.
End Echo.
