(** Model of the string functions of /repo/src/base/helper.cc.  The numeric ones
    ([LinearY], [Round]) are in ModelBase, DoubleToString and IsNumeric in ModelText. *)
From Coq Require Import ZArith Bool List Ascii.
Import ListNotations.
Open Scope Z_scope.

(** std::string as the list of its bytes. *)
Definition str : Type := list ascii.

Section Compare.

(** std::tolower of <cctype> on a char of the string, in the locale of the
    process (helper.cc 16 and 18). *)
Variable tolower : ascii -> Z.

(** helper.cc 11-26.  The loop counter is an unsigned int; strings of 2^32 bytes
    and more are not considered. *)
Fixpoint CompareStrings (str1 str2 : str) : Z :=
  match str1, str2 with
  | c1 :: r1, c2 :: r2 =>
      if tolower c1 <? tolower c2 then -1
      else if tolower c2 <? tolower c1 then 1
      else CompareStrings r1 r2
  | _, _ => if (length str2 <? length str1)%nat then 1 else 0
  end.

End Compare.

(** std::tolower in the "C" locale, for a platform with signed char (a byte from
    128 on is negative and is returned unchanged). *)
Definition tolower_C (c : ascii) : Z :=
  let n := Z.of_nat (nat_of_ascii c) in
  if (65 <=? n) && (n <=? 90) then n + 32
  else if 128 <=? n then n - 256 else n.

(** std::getline(stream, item, delimiter) as used at helper.cc 65.  The stream is
    its unread bytes and its eofbit.  [None]: the stream has failed (nothing was
    extracted, or the stream was not good).  Characters are extracted until the
    delimiter (extracted but not stored) or the end (sets eofbit). *)
Fixpoint getline_scan (unread : str) (delimiter : ascii) : str * str * bool :=
  match unread with
  | [] => ([], [], true)
  | c :: r =>
      if Ascii.eqb c delimiter then ([], r, false)
      else let '(item, rest, eof) := getline_scan r delimiter in (c :: item, rest, eof)
  end.

(** ISO C++ [string.io]: failbit if nothing was extracted. *)
Definition getline (unread : str) (eof : bool) (delimiter : ascii) : option (str * str * bool) :=
  if eof then None
  else match unread with
  | [] => None
  | _ => Some (getline_scan unread delimiter)
  end.

(** helper.cc 65-67: the loop; [fuel] bounds its rounds (each extracts a byte). *)
Fixpoint Parse_loop (fuel : nat) (unread : str) (eof : bool) (delimiter : ascii) : list str :=
  match fuel with
  | O => []
  | S fuel =>
      match getline unread eof delimiter with
      | None => []
      | Some (item, rest, eof) => item :: Parse_loop fuel rest eof delimiter
      end
  end.

(** helper.cc 57-70 *)
Definition Parse (s : str) (delimiter : ascii) : list str :=
  Parse_loop (S (length s)) s false delimiter.
