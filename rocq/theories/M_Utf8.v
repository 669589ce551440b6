(** [std::str::from_utf8] (RFC 3629; the byte ranges of the Unicode standard,
    table 3-7, that core::str::validations checks). *)

From Coq Require Import String NArith List Bool.
From Verif Require Import M_Base M_ConfTypes.
Import ListNotations.
Local Open Scope N_scope.

(** Continuation byte. *)
Definition is_cont (b : byte) : bool := (128 <=? b) && (b <=? 191).

(** Decode all; [None] is [Utf8Error].  Used by
    /repo/letmein-conf/src/ini.rs 82-87. *)
Fixpoint from_utf8 (l : list byte) : option text :=
  match l with
  | [] => Some []
  | b0 :: r0 =>
      if b0 <? 128 then option_map (cons b0) (from_utf8 r0)
      else match r0 with
           | [] => None
           | b1 :: r1 =>
               if (194 <=? b0) && (b0 <=? 223) then
                 if is_cont b1 then option_map (cons ((b0 - 192) * 64 + (b1 - 128))) (from_utf8 r1)
                 else None
               else match r1 with
                    | [] => None
                    | b2 :: r2 =>
                        if (224 <=? b0) && (b0 <=? 239) then
                          let ok1 := if b0 =? 224 then (160 <=? b1) && (b1 <=? 191)
                                     else if b0 =? 237 then (128 <=? b1) && (b1 <=? 159)
                                     else is_cont b1 in
                          if ok1 && is_cont b2 then
                            option_map (cons ((b0 - 224) * 4096 + (b1 - 128) * 64 + (b2 - 128))) (from_utf8 r2)
                          else None
                        else match r2 with
                             | [] => None
                             | b3 :: r3 =>
                                 if (240 <=? b0) && (b0 <=? 244) then
                                   let ok1 := if b0 =? 240 then (144 <=? b1) && (b1 <=? 191)
                                              else if b0 =? 244 then (128 <=? b1) && (b1 <=? 143)
                                              else is_cont b1 in
                                   if ok1 && is_cont b2 && is_cont b3 then
                                     option_map (cons ((b0 - 240) * 262144 + (b1 - 128) * 4096
                                                       + (b2 - 128) * 64 + (b3 - 128))) (from_utf8 r3)
                                   else None
                                 else None
                             end
                    end
           end
  end.
