(** Specification vocabulary for model_io_modify: a wanted shape is a list of sizes and names, written with x between. *)
From Coq Require Import String Ascii DecimalString ZArith List.
From Verif Require Import PyBase GraphModel LoadModel LoadSpec IoModModel.
Import ListNotations.
Local Open Scope list_scope.

Inductive want := Size (n : N) | Named (s : string).
(** decimal numeral *)
Definition numeral (n : N) : string := NilEmpty.string_of_uint (N.to_uint n).
Definition spell (w : want) : string := match w with Size n => numeral n | Named s => s end.
(** "2" "3" "h"  ->  "2x3xh" *)
Fixpoint spell_all (ws : list want) : string :=
  match ws with [] => ""%string | [w] => spell w | w :: r => (spell w ++ "x" ++ spell_all r)%string end.
Definition want_dim (w : want) : pdim := match w with Size n => DVal (Z.of_N n) | Named s => DSym s end.
Definition has_char (c : ascii) (s : string) : Prop := exists a b, s = (a ++ String c b)%string.
(** a size fits the file format; a name has no x in it and does not read as a number *)
Definition plain (w : want) : Prop :=
  match w with
  | Size n => (n < 2 ^ 63)%N
  | Named s => ~ has_char "x" s /\ (s = ""%string \/ exists c, has_char c s /\ (N_of_ascii c < 48 \/ 57 < N_of_ascii c)%N)
  end.
(** what a request asks for: per tensor name a wanted shape *)
Definition request (asks : list (string * list want)) : dict string := map (fun a => (fst a, spell_all (snd a))) asks.
Definition wanted (asks : list (string * list want)) (t : string) : option (list want) := dget asks t.
(** the dimensions the rewritten file must give tensor [t] that was declared with description [v]: the requested ones;
    if none were requested, the old ones, an unset dimension being written as -1 *)
Definition new_dims (asks : list (string * list want)) (t : string) (v : vinfo) : list pdim :=
  match wanted asks t with Some ws => map want_dim ws | None => map (fun d => match d with DUnset => DVal (-1) | _ => d end) (vi_dims v) end.
