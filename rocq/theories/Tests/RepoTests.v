(** The unit tests of /repo/test that need no private data files, replayed on the model by computation.
    These are tests of the model (checks on single inputs), not proofs of properties. *)
From Coq Require Import ZArith QArith List Bool Ascii String.
From Coq.Floats Require Import SpecFloat.
From Verif.Model Require Import Base Strings Float TimeModel Types Collect Lines RawConvert Compose Ssa Subrip WebVtt
  Iso6937Tables Utf Iso6937 StlTables StlUtil StlText StlBinReader StlBinWriter Factory Dump.
From Verif.Tests Require Import TestData.
Import ListNotations.
Local Open Scope Z_scope.

(** The rational value of a finite float; 1000000 otherwise. *)
Definition flt_Q (f : flt) : Q :=
  match f with
  | S754_zero _ => 0
  | S754_finite s m e =>
      let v := cond_Zopp s (Zpos m) in
      if 0 <=? e then inject_Z (v * 2 ^ e) else Qmake v (Z.to_pos (2 ^ (- e)))
  | _ => inject_Z 1000000
  end.
Definition near (tol : Q) (a : flt) (q : Q) : bool :=
  let d := Qminus (flt_Q a) q in Qle_bool d tol && Qle_bool (Qopp tol) d.
Definition close := near (1 # 100000).

Definition sorted_subs (r : res (list raw)) : res (list subtitle) := let* l := r in collect insertion_sort l.

Definition is_time (t : time) (h m s ms : Z) : bool :=
  match from_hms h m s ms with
  | Ok u => match time_eq t u with Ok b => b | _ => false end
  | _ => false
  end.

(** A block as (text, bold, italic, underline). *)
Definition shown (b : block) : str * bool * bool * bool := (b_text b, b_bold b, b_italic b, b_underline b).
Definition show (s : subtitle) : list (option Z * list (str * bool * bool * bool)) :=
  map (fun l => (v_line (l_vpos l), map shown (l_blocks l))) (s_lines s).
Definition shows (r : res (list subtitle)) := let* l := r in Ok (map show l).
Definition times (r : res (list subtitle)) : list (str * str) :=
  match r with Ok l => map (fun s => (print_time (s_from s), print_time (s_to s))) l | _ => [] end.
Definition plain (s : string) : str * bool * bool * bool := (lit s, false, false, false).

(** ** time_test.cc *)
Example time_from_hms :
  match from_hms 3 5 7 40 with
  | Ok t => (hours t =? 3) && (minutes t =? 5) && (seconds t =? 7)
            && match milliseconds t with Ok m => m =? 40 | _ => false end
  | _ => false end = true.
Proof. vm_compute. reflexivity. Qed.
Example time_from_hms2 :
  match from_hms 591353 1 2 3 with
  | Ok t => (hours t =? 591353) && (minutes t =? 1) && (seconds t =? 2)
            && match milliseconds t with Ok m => m =? 3 | _ => false end
  | _ => false end = true.
Proof. vm_compute. reflexivity. Qed.
Example time_frames_at : (let* t := from_hms 0 0 0 40 in frames_at t (mkR 25 1)) = Ok 1
                      /\ (let* t := from_hms 0 0 0 120 in frames_at t (mkR 25 1)) = Ok 3.
Proof. vm_compute. split; reflexivity. Qed.
Example time_add_test :
  (let* a := from_hms 0 4 8 208 in
   let* b := from_frames 54641 (mkR 24 1) in
   let* s := time_add a b in
   let* e := from_hms 0 42 4 916 in
   time_eq s e) = Ok true.
Proof. vm_compute. reflexivity. Qed.
Example time_scale_test :
  (let* a := from_hms 0 0 1 0 in time_scale a (f_of_d (d_lit 96 100))) = Ok (mkT 0 960 (Some (mkR 1000 1)))
  /\ (let* a := from_hms 0 0 2 0 in time_scale a (f_of_d (d_lit 96 100))) = Ok (mkT 1 920 (Some (mkR 1000 1))).
Proof. vm_compute. split; reflexivity. Qed.
Example time_all_as_seconds_throws : all_as_seconds time_zero = Throw EUnknownFrameRate.
Proof. reflexivity. Qed.

(** ** subrip_reader_test.cc *)
Definition srt f := sorted_subs (subrip_reader_file f).
Example subrip_test1_times : times (srt data_test_srt) =
  [(lit "00:00:41:90 @ 1000/1", lit "00:00:42:210 @ 1000/1"); (lit "00:01:01:10 @ 1000/1", lit "00:01:02:100 @ 1000/1")].
Proof. vm_compute. reflexivity. Qed.
Example subrip_test1 : shows (srt data_test_srt) = Ok
  [ [(Some 0, [plain "This is a subtitle"]); (Some 1, [plain "and that's a line break"])];
    [(Some 0, [plain "This is some "; (lit "bold", true, false, false); plain " and some ";
               (lit "bold italic", true, true, false); plain " and some ";
               (lit "underlined", false, false, true); plain "."])] ].
Proof. vm_compute. reflexivity. Qed.
Example subrip_test2 : shows (srt data_test2_srt) = Ok
  [ [(Some 0, [plain "This is a subtitle, and it goes "]); (Some 1, [plain "over two lines."])];
    [(Some 0, [(lit "We have emboldened this", true, false, false)])];
    [(Some 0, [(lit "And italicised this.", false, true, false)])];
    [(Some 0, [plain "Shall I compare thee to a summers' day?"])];
    [(Some 0, [plain "Is this a dagger I see before me?"])];
    [(Some 0, [plain "Hello world."])];
    [(Some 0, [(lit "Some italics over", false, true, false)]); (Some 1, [(lit "multiple lines", false, true, false)])] ].
Proof. vm_compute. reflexivity. Qed.
Example subrip_test3_href :
  match srt data_test3_srt with
  | Ok l => map (fun s => map (fun l => h_ref (l_hpos l)) (s_lines s)) l
  | _ => [] end
  = [[LEFT_OF_SCREEN]; [HORIZONTAL_CENTRE_OF_SCREEN]; [RIGHT_OF_SCREEN]; [HORIZONTAL_CENTRE_OF_SCREEN]].
Proof. vm_compute. reflexivity. Qed.
Example subrip_newline : shows (srt data_newline_srt) = Ok
  [ [(Some 0, [plain "Du fühlst dich danach besser."]); (Some 1, [plain "Okay, Kleiner?"])];
    [(Some 0, [plain "Sie kann es nicht machen"]); (Some 1, [plain "wenn du dich bewegst."])] ].
Proof. vm_compute. reflexivity. Qed.

Definition conv (s : string) : res (list raw) := let* x := convert_line 0 [] (lit s) raw_default [] in Ok (snd x).
Definition conv_show (s : string) := let* l := conv s in Ok (map (fun b => shown (block_of b)) l).
Example subrip_convert_line :
  conv_show "Hello world" = Ok [plain "Hello world"]
  /\ conv_show "<b>Hello world</b>" = Ok [(lit "Hello world", true, false, false)]
  /\ conv_show "<i>Hello world</i>" = Ok [(lit "Hello world", false, true, false)]
  /\ conv_show "<u>Hello world</u>" = Ok [(lit "Hello world", false, false, true)]
  /\ conv_show "{b}Hello world{/b}" = Ok [(lit "Hello world", true, false, false)]
  /\ conv_show "{i}Hello world{/i}" = Ok [(lit "Hello world", false, true, false)]
  /\ conv_show "<b>This is <i>nesting</i> of subtitles</b>" =
       Ok [(lit "This is ", true, false, false); (lit "nesting", true, true, false); (lit " of subtitles", true, false, false)]
  /\ conv_show "<< angle brackets but no HTML >>" = Ok [plain "<< angle brackets but no HTML >>"].
Proof. vm_compute. repeat split; reflexivity. Qed.
Definition conv_colour (s : string) (r g b : Q) : bool :=
  match conv s with
  | Ok l => forallb (fun x => near (1 # 1000) (c_r (r_colour x)) r && near (1 # 1000) (c_g (r_colour x)) g
                              && near (1 # 1000) (c_b (r_colour x)) b) l && negb (is_nil l)
  | _ => false end.
Example subrip_colours :
  conv_colour "<font color=""#ff00ff"">simple color</font>" 1 0 1 = true
  /\ conv_colour "<font color='#ff00ff'>simple color</font>" 1 0 1 = true
  /\ conv_colour "<font color=""#FF00FF"">simple color in capitals</font>" 1 0 1 = true
  /\ conv_colour "<font color=""#ff0000"">some red text <b>in bold</b></font>" 1 0 0 = true
  /\ conv_colour "<Font color=""#ff0000"">some red text <b>in bold</b></font>" 1 0 0 = true
  /\ conv_colour "<font color=""#0000ff"">some blue text <b>in bold</b></font>" 0 0 1 = true
  /\ conv_colour "<font color=""#0000ffdd"">some blue text with alpha</font>" 0 0 1 = true
  /\ conv_colour "<font color=""rgba(255,128,64,15)"">Foo bar</font>" 1 (128 # 255) (64 # 255) = true
  /\ conv_colour "<font color=""rgba(1, 2 , 3, 4)"">Foo bar</font>" (1 # 255) (2 # 255) (3 # 255) = true.
Proof. vm_compute. repeat split; reflexivity. Qed.
Example subrip_convert_time :
  convert_time (lit "00:03:10,500") (lit ",") = Ok (CTime (mkT 190 500 (Some (mkR 1000 1))))
  /\ convert_time (lit "04:19:51,782") (lit ",") = Ok (CTime (mkT (4 * 3600 + 19 * 60 + 51) 782 (Some (mkR 1000 1)))).
Proof. vm_compute. split; reflexivity. Qed.
Example subrip_alignment :
  match conv "{\an1}Hello", conv "{\an2}to", conv "{\an3}you" with
  | Ok [a], Ok [b], Ok [c] =>
      (h_ref (r_hpos a), v_ref (r_vpos a), h_ref (r_hpos b), v_ref (r_vpos b), h_ref (r_hpos c), v_ref (r_vpos c))
      = (LEFT_OF_SCREEN, Some BOTTOM_OF_SCREEN, HORIZONTAL_CENTRE_OF_SCREEN, Some BOTTOM_OF_SCREEN,
         RIGHT_OF_SCREEN, Some BOTTOM_OF_SCREEN)
  | _, _, _ => False end.
Proof. vm_compute. reflexivity. Qed.

(** ** webvtt_reader_test.cc *)
Definition vtt f := sorted_subs (vtt_reader_file f).
Example vtt_test : shows (vtt data_test_vtt) = Ok
  [ [(Some 0, [plain "This is a subtitle"]); (Some 1, [plain "and that's a line break"])];
    [(Some 0, [plain "This is some stuff."])] ].
Proof. vm_compute. reflexivity. Qed.
Example vtt_test_times : times (vtt data_test_vtt) =
  [(lit "00:00:41:90 @ 1000/1", lit "00:00:42:210 @ 1000/1"); (lit "00:01:01:10 @ 1000/1", lit "00:01:02:100 @ 1000/1")].
Proof. vm_compute. reflexivity. Qed.

(** ** stl_text_reader_test.cc *)
Definition stlt f := sorted_subs (stl_text_read true f).
Example stl_text_test : shows (stlt data_test_text_stl) = Ok
  [ [(Some 0, [plain " This is a subtitle "]); (Some 1, [plain " and that's a line break"])];
    [(Some 0, [plain " This is some "; (lit "bold", true, false, false); plain " and some ";
               (lit "bold italic", true, true, false); plain " and some ";
               (lit "underlined", false, false, true); plain "."])] ].
Proof. vm_compute. reflexivity. Qed.
Example stl_text_test_times : times (stlt data_test_text_stl) =
  [(lit "00:00:41:9", lit "00:00:42:21"); (lit "00:01:01:1", lit "00:01:02:10")].
Proof. vm_compute. reflexivity. Qed.
Example stl_text_test_font :
  match stlt data_test_text_stl with
  | Ok l => forallb (fun s => forallb (fun l => forallb (fun b =>
              match b_font b, fs_points (b_font_size b) with
              | Some f, Some p => str_eqb f (lit "Arial") && (p =? 42)
              | _, _ => false end) (l_blocks l)) (s_lines s)) l
  | _ => false end = true.
Proof. vm_compute. reflexivity. Qed.

(** ** ssa_reader_test.cc *)
Definition ssa f := sorted_subs (ssa_reader_file f).
(** A line: vertical position, reference, horizontal position, reference, blocks (text, font, size, style). *)
Definition ssa_line_ok (vp : Q) (vr : vref) (hp : Q) (hr : href) (texts : list (str * bool * bool * bool)) (font : string)
           (size : Q) (l : line) : bool :=
  match v_prop (l_vpos l), v_ref (l_vpos l) with
  | Some p, Some r =>
      close p vp && vref_eqb r vr && close (h_prop (l_hpos l)) hp && href_eqb (h_ref (l_hpos l)) hr
      && list_eqb (fun a t => let '(x, bo, it, un) := t in let '(x', bo', it', un') := a in
           str_eqb x' x && Bool.eqb bo' bo && Bool.eqb it' it && Bool.eqb un' un) (map shown (l_blocks l)) texts
      && forallb (fun b => opt_eqb str_eqb (b_font b) (Some (lit font))
                           && match fs_prop (b_font_size b) with Some z => close z size | None => false end) (l_blocks l)
  | _, _ => false
  end.
Fixpoint all_ok (fs : list (list (line -> bool))) (l : list subtitle) : bool :=
  match fs, l with
  | [], [] => true
  | f :: fs', s :: l' =>
      Nat.eqb (List.length f) (List.length (s_lines s)) && forallb (fun p => fst p (snd p)) (combine f (s_lines s))
      && all_ok fs' l'
  | _, _ => false
  end.
Definition ssa_ok (r : res (list subtitle)) (fs : list (list (line -> bool))) : bool :=
  match r with Ok l => all_ok fs l | _ => false end.

Definition vp (x : Z) : Q := (x * 12) # 10800.
Definition arial := fun v vr h hr t => ssa_line_ok v vr h hr t "Arial" (20 # 1080).
Example ssa_test3 : ssa_ok (ssa data_test_ssa)
  [ [arial (10 # 1080) BOTTOM_OF_SCREEN 0 HORIZONTAL_CENTRE_OF_SCREEN [plain "Hello world"]];
    [arial (Qplus (900 # 1080) (vp 20)) BOTTOM_OF_SCREEN 0 HORIZONTAL_CENTRE_OF_SCREEN [plain "This is vertically moved"];
     arial (900 # 1080) BOTTOM_OF_SCREEN 0 HORIZONTAL_CENTRE_OF_SCREEN [plain "and has two lines."]];
    [arial (10 # 1080) BOTTOM_OF_SCREEN 0 HORIZONTAL_CENTRE_OF_SCREEN
       [plain "Some "; (lit "italics", false, true, false); plain " are here."]];
    [arial (10 # 1080) BOTTOM_OF_SCREEN (10 # 1920) LEFT_OF_SCREEN [plain "bottom left"]];
    [arial (10 # 1080) BOTTOM_OF_SCREEN 0 HORIZONTAL_CENTRE_OF_SCREEN [plain "bottom centre"]];
    [arial (10 # 1080) BOTTOM_OF_SCREEN (10 # 1920) RIGHT_OF_SCREEN [plain "bottom right"]];
    [arial (vp (-10)) VERTICAL_CENTRE_OF_SCREEN (10 # 1920) LEFT_OF_SCREEN [plain "middle left"]];
    [arial (vp (-10)) VERTICAL_CENTRE_OF_SCREEN 0 HORIZONTAL_CENTRE_OF_SCREEN [plain "middle centre"]];
    [arial (vp (-10)) VERTICAL_CENTRE_OF_SCREEN (10 # 1920) RIGHT_OF_SCREEN [plain "middle right"]];
    [arial (10 # 1080) TOP_OF_SCREEN (10 # 1920) LEFT_OF_SCREEN [plain "top left"]];
    [arial (10 # 1080) TOP_OF_SCREEN 0 HORIZONTAL_CENTRE_OF_SCREEN [plain "top centre"]];
    [arial (10 # 1080) TOP_OF_SCREEN (10 # 1920) RIGHT_OF_SCREEN [plain "top right"]] ] = true.
Proof. vm_compute. reflexivity. Qed.
Example ssa_test_pos : ssa_ok (ssa data_test2_ssa)
  [ [arial (10 # 1080) BOTTOM_OF_SCREEN 0 HORIZONTAL_CENTRE_OF_SCREEN [plain "Hello world this is "];
     arial (310 # 1080) TOP_OF_SCREEN (400 # 1920) LEFT_OF_SCREEN [plain "positioning."]] ] = true.
Proof. vm_compute. reflexivity. Qed.
Definition helv := fun (s : Z) v vr t => ssa_line_ok v vr 0 HORIZONTAL_CENTRE_OF_SCREEN t "Helvetica Neue" (s # 1080).
Definition helvc := fun v t =>
  ssa_line_ok v VERTICAL_CENTRE_OF_SCREEN 0 HORIZONTAL_CENTRE_OF_SCREEN t "Helvetica Neue 60 Center" (60 # 1080).
Example ssa_test7 : ssa_ok (ssa data_test3_ssa)
  [ [helv 60 (Qplus (vp 60) (100 # 1080)) BOTTOM_OF_SCREEN [plain "Helvetica Neue 60pt - Default"];
     helv 60 (100 # 1080) BOTTOM_OF_SCREEN [plain "Bottom 100 pt off edge"]];
    [helv 30 (Qplus (vp 30) (100 # 1080)) BOTTOM_OF_SCREEN [plain "Helvetica Neue 30pt"];
     helv 30 (100 # 1080) BOTTOM_OF_SCREEN [plain "Bottom 100pt off edge"]];
    [helv 120 (Qplus (vp 120) (100 # 1080)) BOTTOM_OF_SCREEN [plain "Helvetica Neue 120pt"];
     helv 120 (100 # 1080) BOTTOM_OF_SCREEN [plain "Bottom 100pt off edge"]];
    [helv 60 (100 # 1080) TOP_OF_SCREEN [plain "Helvetica Neue 60pt"];
     helv 60 (Qplus (vp 60) (100 # 1080)) TOP_OF_SCREEN [plain "Top Alignment 100pt off edge"]];
    [helvc (vp (-60)) [plain "Helvetica Neue 60pt"]; helvc 0 [plain " Vertical Center Alignment"]] ] = true.
Proof. vm_compute. reflexivity. Qed.
Example ssa_horizontal_margin :
  match ssa data_horizontal_margin_ssa with
  | Ok l => list_eqb (fun a b => a && b)
      (map (fun p => match snd p with
                     | [x] => href_eqb (h_ref (l_hpos x)) (fst (fst p)) && close (h_prop (l_hpos x)) (snd (fst p))
                     | _ => false end)
        (combine [(HORIZONTAL_CENTRE_OF_SCREEN, 0%Q); (HORIZONTAL_CENTRE_OF_SCREEN, (-90 # 3840)%Q);
                  (LEFT_OF_SCREEN, (10 # 1920)%Q); (RIGHT_OF_SCREEN, (100 # 1920)%Q); (LEFT_OF_SCREEN, (200 # 1920)%Q)]
                 (map s_lines l)))
      [true; true; true; true; true]
  | _ => false end = true.
Proof. vm_compute. reflexivity. Qed.
Definition ssa_parse (s : string) (c : colour) := parse_line raw_default (lit s) (mkCtx 1920 1080 c 0 0).
Example ssa_line_test1 :
  (let* l := ssa_parse "This is a line with some {\i1}italics{\i0} and then\nthere is a new line." white in
   Ok (map (fun b => (r_text b, r_italic b)) l))
  = Ok [(lit "This is a line with some ", false); (lit "italics", true); (lit " and then", false);
        (lit "there is a new line.", false)].
Proof. vm_compute. reflexivity. Qed.
Example ssa_line_test2 :
  (let* l := ssa_parse "{\i1}It's all just italics{\i0}" white in Ok (map (fun b => (r_text b, r_italic b)) l))
  = Ok [(lit "It's all just italics", true)].
Proof. vm_compute. reflexivity. Qed.
Example ssa_line_test2' :
  match ssa_parse "{\i1}Italic{\i0}\Nand new line" white with
  | Ok [a; b] => str_eqb (r_text a) (lit "Italic") && r_italic a && str_eqb (r_text b) (lit "and new line")
                 && negb (r_italic b)
                 && match v_prop (r_vpos a), v_prop (r_vpos b) with
                    | Some p, Some q => close p (vp 72) && close q 0
                    | _, _ => false end
  | _ => false end = true.
Proof. vm_compute. reflexivity. Qed.
Example ssa_fs :
  match ssa_parse "This is a line with some {\fs64}font sizing." white with
  | Ok [a; b] => str_eqb (r_text a) (lit "This is a line with some ") && str_eqb (r_text b) (lit "font sizing.")
                 && match fs_prop (r_font_size b) with Some z => close z (64 # 1080) | None => false end
  | _ => false end = true.
Proof. vm_compute. reflexivity. Qed.
Definition test_c (c colour : string) : bool :=
  match ssa_parse ("{\c" ++ c ++ "}Hello world") (mkC (f_of_int 1) (f_of_int 0) (f_of_int 1)), from_rgb_hex (lit colour) with
  | Ok [a], Ok col => str_eqb (r_text a) (lit "Hello world") && colour_eqb (r_colour a) col
  | _, _ => false end.
Example ssa_c : forallb (fun p => test_c (fst p) (snd p))
  [("&H00FFFF&", "ffff00"); ("&H123456&", "563412"); ("&H0&", "000000"); ("&HFF&", "ff0000"); ("&HFF00&", "00ff00");
   ("&HFF0000&", "0000ff"); ("&HFFFFFF&", "ffffff"); ("", "ff00ff")]%string = true.
Proof. vm_compute. reflexivity. Qed.

(** ** iso6937_test.cc *)
Definition dec (l : list Z) : res str := let* w := snd (iso6937_to_utf16 tables_empty (map chr l)) in Ok (wide_to_utf8 w).
Definition enc (s : string) : list Z := map code (snd (utf16_to_iso6937 tables_empty (utf8_to_wide (lit s)))).
Example iso_decode :
  dec (map code (lit "Hello world")) = Ok (lit "Hello world")
  /\ dec (map code (lit "Testing ") ++ [169] ++ map code (lit "testing") ++ [185]) = Ok (lit "Testing ‘testing’")
  /\ dec (map code (lit "All must have ") ++ [203] ++ map code (lit "cedillas")) = Ok (lit "All must have çedillas")
  /\ dec (map code (lit "M") ++ [200] ++ map code (lit "otorhead")) = Ok (lit "Mötorhead")
  /\ dec (map code (lit "Pass") ++ [10] ++ map code (lit "newlines")) = Ok (lit "Pass" ++ [chr 10] ++ lit "newlines").
Proof. vm_compute. repeat split; reflexivity. Qed.
Example iso_encode :
  enc "Hello world" = map code (lit "Hello world")
  /\ enc "Testing ‘testing’" = map code (lit "Testing ") ++ [169] ++ map code (lit "testing") ++ [185]
  /\ enc "All must have çedillas" = map code (lit "All must have ") ++ [203] ++ map code (lit "cedillas")
  /\ enc "Mötorhead" = map code (lit "M") ++ [200] ++ map code (lit "otorhead")
  /\ enc "Ignore prime′s and just use quote's" = map code (lit "Ignore prime's and just use quote's").
Proof. vm_compute. repeat split; reflexivity. Qed.
(** The characters of /repo/test/ref/test3.stl: hyphens, dashes and the dollar sign. *)
Example iso_encode_ref : enc "‐‑‒–—$" = [45; 45; 45; 208; 208; 164].
Proof. vm_compute. reflexivity. Qed.

(** ** vertical_position_test.cc *)
Example vpos_test1 :
  (let a := mkV (Some (f_of_d (d_lit 3 10))) None None (Some TOP_OF_SCREEN) in
   let b := mkV (Some (f_of_d (d_lit 7 10))) None None (Some BOTTOM_OF_SCREEN) in
   match fraction_from_screen_top a, fraction_from_screen_top b with
   | Ok x, Ok y => close x (3 # 10) && close y (3 # 10)
   | _, _ => false end) = true.
Proof. vm_compute. reflexivity. Qed.
