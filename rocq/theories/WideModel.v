(** Model of the conversions of an event to text in any character type,
    include/wtr/watcher.hpp:208-243, 290-319: to<basic_string<Char>>(event) and
    operator<< on a stream of that character type. *)
From Verif Require Import Base EventModel BindModel.

(** to<basic_string<Char>>(path_name), :300, :310: path::string() or
    path::wstring().  [conv] is that conversion: the identity where the native
    encoding is asked for; where it has to convert and cannot ([None]), it throws,
    and as the function is noexcept the program ends. *)
Definition path_by (conv : text -> option text) (p : text) : out text :=
  match conv p with Some t => Ok t | None => Crash end.
(** wide text on POSIX: UTF-8 to UTF-32 (wchar_t has 32 bits). *)
Definition widen : text -> option text := decode.

(** num_to_str, :208-243, for wide characters: the same characters, each widened;
    the literals and names are the same in each character type. *)
Definition json_by (conv : text -> option text) (from : event) : out text :=
  match path_by conv (ev_path from) with
  | Ok p =>
      let part (asc : text) :=
        quoted (num_to_str (ev_time from)) ++ lit ":{"
        ++ lit """effect_type"":" ++ quoted (effect_name (ev_effect from)) ++ lit ","
        ++ lit """path_name"":" ++ quoted p ++ lit ","
        ++ lit """path_type"":" ++ quoted (ptype_name (ev_ptype from)) ++ asc ++ lit "}" in
      match ev_assoc from with
      | None => Ok (part [])
      | Some a =>
          match path_by conv (ev_path a) with
          | Ok q => Ok (part (lit ",""associated""" ++ lit ":{"
              ++ lit """effect_type"":" ++ quoted (effect_name (ev_effect a)) ++ lit ","
              ++ lit """path_name"":" ++ quoted q ++ lit ","
              ++ lit """path_type"":" ++ quoted (ptype_name (ev_ptype a)) ++ lit "}"))
          | r => r
          end
      end
  | r => r
  end.

(** A stream is what has been written, and operator<< (:328-361) appends.  On a
    stream of this character type: *)
Definition stream_by (conv : text -> option text) (into : text) (from : event) : out text :=
  match json_by conv from with Ok t => Ok (into ++ t) | r => r end.
