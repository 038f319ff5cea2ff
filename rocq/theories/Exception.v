(** * Exception: model of src/lib/exception.h and of the handler in src/main.cpp. *)
From Coq Require Import String Ascii List.
From Verif Require Import Base.
Import ListNotations.
Open Scope string_scope.

(** A const char*: to the text of a living object, or to a buffer that has been
    destroyed (exception.h:41-44). *)
Inductive cptr : Type :=
| Alive (s : string)
| Dead.
(** Reading the text a pointer points to (std::string(p), os << p:
    exception.h:27, 49, main.cpp:24). *)
Definition text_at (p : cptr) : res string :=
  match p with Alive s => Ok s | Dead => UB DanglingPointer end.

(** qk::exception: the text of the stream _what (exception.h:68); operator<< on
    _what appends. *)
Definition exc : Type := string.

(** exception(), exception(error), exception(const qk::exception &)
    (exception.h:15-33). *)
Definition exc_default : exc := "".
Definition exc_new (error : string) : exc := error.
Definition exc_copy (other : exc) : exc := other.
(** exception(const std::exception &) (exception.h:25-28); [w] is other.what(). *)
Definition exc_of_std (w : cptr) : res exc := text_at w.

(** what (exception.h:41-44): str() returns a temporary string, which is destroyed
    when the function returns the pointer to its text. *)
Definition exc_what (e : exc) : cptr := Dead.

(** operator<<(const std::string &) (exception.h:59-64). *)
Definition exc_append (e : exc) (s : string) : exc := e ++ s.

(** operator= (exception.h:46-51); [rd] reads the text what() points to.
    std::stringstream::clear resets the error state and leaves the text. *)
Definition exc_assign_with (rd : cptr -> res string) (e other : exc) (w : cptr) : res exc :=
  s <- rd w ;; Ok (exc_append e s).
Definition exc_assign (e other : exc) : res exc := exc_assign_with text_at e other (exc_what other).

(** operator<<(std::ostream &, const qk::exception &) (exception.h:53-57): what is
    appended to the stream. *)
Definition exc_show (e : exc) : string := e.

(** The handler of main (main.cpp:23-26): the text written to std::cout. *)
Definition main_handler (e : exc) : res string :=
  s <- text_at (exc_what e) ;; Ok ("*** quikin exception caught ***" ++ String "010"%char s).
