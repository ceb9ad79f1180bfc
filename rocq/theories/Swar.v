(** Model of the tank game /repo/swar.c as compiled by scc (16-bit int, signed 8-bit
    char): pixels, trigonometry, terrain, tanks, shots and keys.  The video memory is the
    16 KiB frame buffer at segment B800; offsets outside it are undefined behaviour of the
    model (GetPtr, swar.c:283-303, aborts there).  The font, the key reading and the screen
    mode switching are not modelled: characters are drawn from an arbitrary font. *)
From Coq Require Import ZArith List Bool Lia.
From Verif Require Import Base.
Import ListNotations.
Open Scope Z_scope.

Definition SCREENW : Z := 320. (* swar.c:8 *)
Definition SCREENH : Z := 200. (* swar.c:9 *)

(** * The tables filled in by main, swar.c:506-516 *)
(** swar.c:507 *)
Definition YTab (y : Z) : Z := s16 (Z.lor (s16 (Z.shiftr y 1 * 80)) (Z.shiftl (Z.land y 1) 13)).
(** swar.c:511 *)
Definition shift_of (x : Z) : Z := 6 - Z.land x 3 * 2.
(** swar.c:512, stored in a char *)
Definition XMask (x : Z) : Z := s8 (Z.lnot (Z.shiftl 3 (shift_of x))).
(** swar.c:514, stored in a char *)
Definition Col (y x : Z) : Z := s8 (Z.shiftl y (shift_of x)).

(** * Far memory, lib.h FarPeek/FarPoke at VIDEO_SEG, swar.c:305-313 *)
Definition FarPeek (m : arr Z) (off : Z) : outcome Z :=
  if (0 <=? off) && (off <? 0x4000) then Ok (aget m off) else UB.
Definition FarPoke (m : arr Z) (off v : Z) : outcome (arr Z) :=
  if (0 <=? off) && (off <? 0x4000) then Ok (aset m off (v mod 256)) else UB.

(** indexing YTab[SCREENH], swar.c:337 *)
Definition ytab (y : Z) : outcome Z := if (0 <=? y) && (y <? SCREENH) then Ok (YTab y) else UB.

(** swar.c:352-358 *)
Definition ReadPixel (m : arr Z) (x y : Z) : outcome Z :=
  let r := Z.shiftl (3 - Z.land x 3) 1 in
  let x := Z.shiftr x 2 in
  obind (ytab y) (fun t =>
  let x := s16 (x + t) in
  obind (FarPeek m x) (fun b => Ok (Z.land (Z.shiftr b r) 3))).
(** swar.c:360-367; the colour table cs is Col[c] *)
Definition PutPixel (m : arr Z) (x y c : Z) : outcome (arr Z) :=
  let r := Z.land x 3 in
  let x := Z.shiftr x 2 in
  obind (ytab y) (fun t =>
  let x := s16 (x + t) in
  obind (FarPeek m x) (fun old =>
  FarPoke m x (Z.lor (Z.land old (XMask r)) (Col c r)))).

(** * Trigonometry, swar.c:316-329 *)
Definition CosTab : list Z :=
  [0x00;0xFF;0xFF;0xFF;0xFE;0xFE;0xFD;0xFC;0xFB;0xF9;0xF8;0xF6;0xF4;0xF3;0xF1;0xEE;
   0xEC;0xEA;0xE7;0xE4;0xE1;0xDE;0xDB;0xD8;0xD4;0xD1;0xCD;0xC9;0xC5;0xC1;0xBD;0xB9;
   0xB5;0xB0;0xAB;0xA7;0xA2;0x9D;0x98;0x93;0x8E;0x88;0x83;0x7E;0x78;0x73;0x6D;0x67;
   0x61;0x5C;0x56;0x50;0x4A;0x44;0x3E;0x38;0x31;0x2B;0x25;0x1F;0x19;0x12;0x0C;0x06].
(** swar.c:317-324 *)
Definition ICos (ang : Z) : Z :=
  let q := Z.land (Z.shiftr ang 6) 3 in
  let odd := Z.land q 1 =? 1 in
  let r := nth (Z.to_nat (Z.land (if odd then s16 (- ang) else ang) 63)) CosTab 0 in
  let r := if (r =? 0) && negb odd then Z.lor r 0x100 else r in
  if Z.lxor (Z.shiftr q 1) (Z.land q 1) =? 0 then r else - r.
(** swar.c:326-329 *)
Definition ISin (ang : Z) : Z := ICos (s16 (ang - 64)).

(** * Random numbers, swar.c:343-350: new seed and result *)
Definition Rand (seed : Z) : Z * Z :=
  let b := Z.land seed 1 in
  let seed := Z.shiftr seed 1 in
  let seed := if b =? 0 then seed else s16 (Z.lxor seed 0xb40) in
  (seed, Z.land seed 0x7fff).

(** the loop drawing a slope, swar.c:523-526 *)
Fixpoint slope (fuel : nat) (seed : Z) : outcome (Z * Z) :=
  match fuel with
  | O => OutOfFuel
  | S fuel => let (seed, r) := Rand seed in
              let s := Z.land r 7 in
              if s =? 7 then slope fuel seed else Ok (seed, s)
  end.
(** the terrain, swar.c:518-528: the heights of columns x, x+1, ... *)
Fixpoint terrain (fuel : nat) (n : nat) (seed y : Z) : outcome (list Z) :=
  match n with
  | O => Ok []
  | S n => let y := if y <? 20 then 20 else if SCREENH - 20 <? y then SCREENH - 20 else y in
           obind (slope fuel seed) (fun '(seed, s) =>
           obind (terrain fuel n seed (s16 (y + s16 (s - 3)))) (fun r => Ok (y :: r)))
  end.
Definition Grass (fuel : nat) (seed : Z) : outcome (list Z) := terrain fuel (Z.to_nat SCREENW) seed (SCREENH / 2).
(** filling the columns, swar.c:530-534: y runs from Grass[x] to 199 *)
Fixpoint fill_column (n : nat) (m : arr Z) (x y : Z) : outcome (arr Z) :=
  match n with
  | O => Ok m
  | S n => if y <? SCREENH then obind (PutPixel m x y 1) (fun m => fill_column n m x (y + 1)) else Ok m
  end.
Fixpoint fill_terrain (m : arr Z) (x : Z) (g : list Z) : outcome (arr Z) :=
  match g with
  | [] => Ok m
  | y :: g => obind (fill_column (Z.to_nat SCREENH) m x y) (fun m => fill_terrain m (x + 1) g)
  end.

(** * Tanks *)
Definition TW : Z := 9.  (* swar.c:369 *)
Definition TH : Z := 4.
Definition TUR : Z := 6.
(** swar.c:376-380 *)
Fixpoint turret_loop (n : nat) (m : arr Z) (tx ty ca sa c : Z) : outcome (arr Z) :=
  match n with
  | O => Ok m
  | S n => obind (PutPixel m (Z.land (Z.shiftr tx 7) 0x1ff) (Z.shiftr ty 7) c) (fun m =>
           turret_loop n m (s16 (tx + ca)) (s16 (ty + sa)) ca sa c)
  end.
(** swar.c:370-382 *)
Definition DrawTurret (m : arr Z) (x y ang c : Z) : outcome (arr Z) :=
  let tx := s16 (Z.shiftl (x + TW / 2) 7) in
  let ty := s16 (Z.shiftl (y + TUR) 7) in
  let ca := Z.shiftr (ICos ang) 1 in
  let sa := Z.shiftr (- ISin ang) 1 in
  turret_loop (Z.to_nat TUR) m tx ty ca sa c.
(** swar.c:441-449 *)
Fixpoint body_row (n : nat) (m : arr Z) (x y c : Z) : outcome (arr Z) :=
  match n with
  | O => Ok m
  | S n => obind (PutPixel m x y c) (fun m => body_row n m (x + 1) y c)
  end.
Fixpoint body_rows (n : nat) (m : arr Z) (x y c : Z) : outcome (arr Z) :=
  match n with
  | O => Ok m
  | S n => obind (body_row (Z.to_nat TW) m x y c) (fun m => body_rows n m x (y + 1) c)
  end.
Definition DrawBody (m : arr Z) (x y c : Z) : outcome (arr Z) := body_rows (Z.to_nat TH) m x (y + (TUR + 1)) c.
(** struct Tank, swar.c:331-334; the colour pointer c is the row of Col *)
Record tank := mktank { t_x : Z; t_y : Z; t_ang : Z; t_pow : Z; t_c : Z }.
(** swar.c:477-481 *)
Definition DrawTank (m : arr Z) (t : tank) : outcome (arr Z) :=
  obind (DrawBody m (t_x t) (t_y t) (t_c t)) (fun m => DrawTurret m (t_x t) (t_y t) (t_ang t) (t_c t)).
(** swar.c:487-490 *)
Definition wrap_ang (ang : Z) : Z :=
  let ang := if ang <? 0 then s16 (ang + 129) else ang in
  if 128 <? ang then s16 (ang - 129) else ang.
(** swar.c:483-492 *)
Definition UpdateTurrent (m : arr Z) (t : tank) (ang : Z) : outcome (arr Z * tank) :=
  obind (DrawTurret m (t_x t) (t_y t) (t_ang t) 0) (fun m =>
  let ang := wrap_ang ang in
  obind (DrawTurret m (t_x t) (t_y t) ang (t_c t)) (fun m =>
  Ok (m, mktank (t_x t) (t_y t) ang (t_pow t) (t_c t)))).
(** the two tanks as set up by main, swar.c:538-548 *)
Definition tank1 (g : Z -> Z) : tank := mktank 20 (g (20 + TW / 2) - (TH + TUR + 1)) 32 100 2.
Definition tank2 (g : Z -> Z) : tank := mktank 300 (g (300 + TW / 2) - (TH + TUR + 1)) 96 100 3.

(** * Keys: the angle asked for and the new power, swar.c:577-604; None for other keys *)
Definition key (ch : Z) (t : tank) : option (Z * Z) :=
  let ang := t_ang t in
  let pow := t_pow t in
  if ch =? 0x4B00 then Some (s16 (ang + 1), pow)
  else if ch =? 0x4D00 then Some (s16 (ang - 1), pow)
  else if ch =? 0x4800 then Some (ang, if 100 <=? s16 (pow + 1) then 100 else s16 (pow + 1))
  else if ch =? 0x5000 then Some (ang, if s16 (pow - 1) <? 0 then 0 else s16 (pow - 1))
  else if ch =? 0x4900 then Some (ang, 100)
  else if ch =? 0x5100 then Some (ang, 0)
  else None.
(** swar.c:575-608, without the text drawn by ShowTankInfo *)
Definition press (m : arr Z) (t : tank) (ch : Z) : outcome (arr Z * tank) :=
  match key ch t with
  | None => Ok (m, t)
  | Some (ang, pow) =>
      let t := mktank (t_x t) (t_y t) (t_ang t) pow (t_c t) in
      if ang =? t_ang t then Ok (m, t) else UpdateTurrent m t ang
  end.

(** * Shots *)
(** swar.c:384 *)
Definition INSCREEN (sx sy : Z) : bool := (0 <=? sx) && (sx <? SCREENW) && (0 <=? sy) && (sy <? SCREENH).
(** swar.c:431-432 and 410-411 *)
Definition erase (m : arr Z) (lx ly : Z) : outcome (arr Z) :=
  if INSCREEN lx ly then PutPixel m lx ly 0 else Ok m.
(** the loop of swar.c:401-429 and the end 431-434 *)
Fixpoint flight (fuel : nat) (m : arr Z) (tx ty ca sa ssa lx ly : Z) : outcome (arr Z * Z) :=
  match fuel with
  | O => OutOfFuel
  | S fuel =>
      let sx := Z.land (Z.shiftr tx 7) 0x1ff in
      let sy := Z.shiftr ty 7 in
      if (sx <? 0) || (SCREENW <=? sx) || (SCREENH <=? sy) then
        obind (erase m lx ly) (fun m => Ok (m, 0))
      else
        obind (erase m lx ly) (fun m =>
        let next m := flight fuel m (s16 (tx + ca)) (s16 (ty + sa)) ca (s16 (sa + Z.shiftr ssa 10)) (s16 (ssa + 5)) sx sy in
        if INSCREEN sx sy then
          if 8 <? sy then
            obind (ReadPixel m sx sy) (fun hit =>
            if hit =? 0 then obind (PutPixel m sx sy 1) next
            else obind (PutPixel m sx sy 0) (fun m => Ok (m, hit)))
          else obind (PutPixel m sx sy 1) next
        else next m)
  end.
(** swar.c:386-400 *)
Definition Fire (fuel : nat) (m : arr Z) (t : tank) : outcome (arr Z * Z) :=
  let ca := Z.shiftr (ICos (t_ang t)) 1 in
  let sa := Z.shiftr (- ISin (t_ang t)) 1 in
  let tx := s16 (s16 (Z.shiftl (t_x t + TW / 2) 7) + s16 (ca * TUR)) in
  let ty := s16 (s16 (Z.shiftl (t_y t + TUR) 7) + s16 (sa * TUR)) in
  flight fuel m tx ty (Z.quot (s16 (ca * t_pow t)) 100) (Z.quot (s16 (sa * t_pow t)) 100) 0 (-1) 0.

(** * Text *)
(** swar.c:451-460: font is the byte read at FONT_OFF + ch*8 + cy *)
Fixpoint char_row (n : nat) (m : arr Z) (x y row fg bg : Z) : outcome (arr Z) :=
  match n with
  | O => Ok m
  | S n => obind (PutPixel m x y (if Z.land row 0x80 =? 0 then bg else fg)) (fun m =>
           char_row n m (x + 1) y (s16 (Z.shiftl row 1)) fg bg)
  end.
Fixpoint char_rows (font : Z -> Z -> Z) (n : nat) (m : arr Z) (x y ch cy fg bg : Z) : outcome (arr Z) :=
  match n with
  | O => Ok m
  | S n => obind (char_row 8 m x (y + cy) (font ch cy) fg bg) (fun m => char_rows font n m x y ch (cy + 1) fg bg)
  end.
Definition DrawChar (font : Z -> Z -> Z) (m : arr Z) (x y ch fg bg : Z) : outcome (arr Z) :=
  char_rows font 8 m x y ch 0 fg bg.
(** swar.c:462-468 *)
Fixpoint DrawStr (font : Z -> Z -> Z) (m : arr Z) (x y : Z) (s : list Z) (fg bg : Z) : outcome (arr Z) :=
  match s with
  | [] => Ok m
  | ch :: s => obind (DrawChar font m x y ch fg bg) (fun m => DrawStr font m (x + 8) y s fg bg)
  end.
