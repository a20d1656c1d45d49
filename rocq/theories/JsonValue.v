(** * JSON values (serde_json::Value) *)
From Coq Require Import String List NArith ZArith Bool.
From Verif Require Import Base.
Import ListNotations.

(** serde_json's [Value] as used by src/interchange/cjson/mod.rs 325-430 and by
    [TargetDescription.custom] (src/metadata.rs 1531).
    - numbers: [JInt] covers [u64] and [i64]; any other number is [JFloat], which
      keeps its literal and is otherwise opaque (the library never looks at it);
    - objects: [serde_json::Map] is a [BTreeMap], so an object value coming out of
      serde_json has its keys strictly increasing ([wf_json] in Json.v). *)
Inductive json :=
| JNull
| JBool (b : bool)
| JInt (z : Z)
| JFloat (lit : string)
| JStr (s : string)
| JArr (l : list json)
| JObj (m : list (string * json)).
