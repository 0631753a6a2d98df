(** Model of the email example (examples/email.cpp). *)
From Coq Require Import String List NArith ZArith Bool.
From Verif Require Import Model.Base Model.WebMaps Model.Streams Model.Environment Model.Chunks Model.Mailer Model.Sql
  Model.Examples Model.SessionExample.
Import ListNotations.
Local Open Scope N_scope.

(** email.cpp 74-93: two loops over [find], one for each character. *)
Definition replace_all (c d : N) (s : list N) : list N := map (fun x => if x =? c then d else x) s.
Definition removeLines (s : list N) : list N := replace_all 13 32 (replace_all 10 32 s).

(** [message.find(L"\r\n\r\n", start)]: what is before and behind the first
    occurrence. *)
Fixpoint find_break (s : list N) : option (list N * list N) :=
  if list_eqb (firstn 4 s) [13; 10; 13; 10] then Some ([], skipn 4 s)
  else match s with
       | [] => None
       | c :: r => match find_break r with Some (a, b) => Some (c :: a, b) | None => None end
       end.

(** Auxiliary, no counterpart in the code: a wide literal written to the body
    of the mail, email.cpp 136-190. *)
Definition wc (s : string) : cop := CWrite (wide_lit (lit s)).

(** email.cpp 157-172; [message] is what follows [start]. *)
Fixpoint para_ops (fuel : nat) (message : list N) : list cop :=
  match fuel with
  | O => []
  | S f =>
      [wc "<p>"; CEnc E_HTML] ++
      match find_break message with
      | None => [CWrite message; CEnc E_NONE; wc "</p>"]
      | Some (a, b) => [CWrite a; CEnc E_NONE; wc "</p>"] ++ para_ops f b
      end
  end.

(** email.cpp 142-176.  [date]: what [put_time] writes, character by
    character. *)
Definition mail_ops (to from subject message date : list N) : list cop :=
  [wc "From: "; CWrite from; CWrite [10]; wc "To: "; CWrite to; CWrite [10]; wc "Subject: "; CWrite subject; CWrite [10];
   wc "Date: "] ++ map CPut date ++
  [CWrite [10]; wc "Content-Type: text/html; charset=utf-8;"; CWrite [13; 10; 13; 10]; wc "<!DOCTYPE html>"; CWrite [10];
   wc "<html><head><title>"; CEnc E_HTML; CWrite subject; CEnc E_NONE; wc "</title></head><body>"] ++
  para_ops (S (length message)) message ++ [wc "</body></html>"].

(** Email<wchar_t>: [to] and [from] (src/email.cpp 35-61), the body
    ([data], email.hpp 92-96 and email.cpp 63-70). *)
Definition mail_of (strict : bool) (fuel : nat) (to from : list N) (ops : list cop) : run mail :=
  match wide_chunks strict fuel ops with
  | Done w =>
      match emptyBuffer_wchunk strict fuel w with
      | Val (_, w') => Done (mkMail (w_dev w') (convert_text strict to) (convert_text strict from))
      | UB => Undef
      end
  | Spin => Spin
  | Undef => Undef
  end.

(** email.cpp 98-180: the mail queued, if any.  Line 128 examines the wrong
    iterator, so that without a message 133 dereferences [end]. *)
Definition email_send (strict : bool) (fuel : nat) (e : env) (date : list N) : run (option mail) :=
  match first_named (lit "to") (e_posts e) with
  | None => Done None
  | Some to =>
  match first_named (lit "from") (e_posts e) with
  | None => Done None
  | Some from =>
  match first_named (lit "subject") (e_posts e) with
  | None => Done None
  | Some subject =>
  match first_named (lit "message") (e_posts e) with
  | None => Undef
  | Some message =>
      let to := removeLines to in
      let from := removeLines from in
      match mail_of strict fuel to from (mail_ops to from (removeLines subject) message date) with
      | Done m => Done (Some m)
      | Spin => Spin
      | Undef => Undef
      end
  end end end end.

(** email.cpp 10-50: what is written, and the mail queued. *)
Definition email_response (strict : bool) (fuel : nat) (e : env) (date : list N) : run (list sop * option mail) :=
  let page middle :=
    [w "Content-Type: text/html; charset=utf-8"; OpWrite [13; 10; 13; 10]; w "<!DOCTYPE html>"; OpWrite [10];
     w "<html><head><meta charset='utf-8' /><title>fastcgi++: Email Sender</title></head><body>"] ++ middle ++
    [w "</body></html>"] in
  if e_requestMethod e =? 3 then
    match email_send strict fuel e date with
    | Done (Some m) => Done (page [w "<h2>Email Queued!</h2>"], Some m)
    | Done None => Done (page [w "<h2>Unable to send email</h2>"], None)
    | Spin => Spin
    | Undef => Undef
    end
  else
    Done (page [w "<h2>Compose Email</h2><form method='post' enctype='application/x-www-form-urlencoded' accept-charset='utf-8'>To: <input type='text' name='to' /><br />From: <input type='text' name='from' /><br />Subject: <input type='text' name='subject' /><br /><textarea name='message' wrap='soft' cols='50' rows='20'>Put you message here with whatever dangerous characters you want!";
                OpWrite [13; 10; 13; 10];
                w "Use a double space for new paragraphs.</textarea><br /><input type='submit' name='Send' value='Send' /></form>"], None).
