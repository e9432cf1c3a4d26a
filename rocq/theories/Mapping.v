(** * Text of the language

    framework_python/rei/format/mapping/cognilang_map_utility.py *)
From Verif Require Export Factory.

(** dir_enum_relation, cognilang_map_utility.py:6-14 *)
Definition dir_enum_relation (t : string) : res direction :=
  if decide (t = "<-") then Ok INWARDS
  else if decide (t = "->") then Ok OUTWARDS
  else if decide (t = "--") then Ok BIDIRECTIONAL
  else Exn ErrorInvalidDirection.
