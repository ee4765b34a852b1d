(** GENERATED by tools/gen_testdata.py from /repo/test/data: the bytes of the data files of the unit tests. *)
From Coq Require Import List Ascii String.
From Verif.Model Require Import Base.
Local Open Scope string_scope.

(** /repo/test/data/horizontal_margin.ssa *)
Definition data_horizontal_margin_ssa : str :=
  (lit "[Script Info]
Title: libsub test
ScriptType: v4.00
WrapStyle: 0
ScaledBorderAndShadow: yes
PlayResX: 1920
PlayResY: 1080

[V4 Styles]
Format: Name, Fontname, Fontsize, PrimaryColour, SecondaryColour, TertiaryColour, BackColour, Bold, Italic, BorderStyle, Outline, Shadow, Alignment, MarginL, MarginR, MarginV, AlphaLevel, Encoding
Style: Default,Arial,20,16777215,255,0,0,0,0,1,2,2,2,200,100,10,0,1

[Fonts]

[Graphics]

[Events]
Format: Marked, Start, End, Style, Name, MarginL, MarginR, MarginV, Effect, Text
Dialogue: Marked=0,0:00:01.23,0:00:04.55,Default,,100,0,0,,Hello world
Dialogue: Marked=0,0:01:01.23,0:01:04.55,Default,,10,0,0,,Left of centre
Dialogue: Marked=0,0:02:01.23,0:02:04.55,Default,,10,0,0,,{\an4}Left
Dialogue: Marked=0,0:03:01.23,0:03:04.55,Default,,10,0,0,,{\an6}Right
Dialogue: Marked=0,0:04:01.23,0:04:04.55,Default,,0,100,0,,{\an4}Style left
")%list.

(** /repo/test/data/newline.srt *)
Definition data_newline_srt : str :=
  (lit "1
00:01:08,234 --> 00:01:10,570
Du fühlst dich danach besser. Okay, Kleiner?

2
00:01:40,642 --> 00:01:42,769
Sie kann es nicht machen
wenn du dich bewegst.
")%list.

(** /repo/test/data/test.srt *)
Definition data_test_srt : str :=
  (lit "1
00:00:41,090 --> 00:00:42,210
This is a subtitle
and that's a line break

2
00:01:01,010 --> 00:01:02,100
This is some <b>bold</b> and some <b><i>bold italic</b></i> and some <u>underlined</u>.
")%list.

(** /repo/test/data/test.ssa *)
Definition data_test_ssa : str :=
  (lit "[Script Info]
Title: libsub test
ScriptType: v4.00
WrapStyle: 0
ScaledBorderAndShadow: yes
PlayResX: 1920
PlayResY: 1080

[V4 Styles]
Format: Name, Fontname, Fontsize, PrimaryColour, SecondaryColour, TertiaryColour, BackColour, Bold, Italic, BorderStyle, Outline, Shadow, Alignment, MarginL, MarginR, MarginV, AlphaLevel, Encoding
Style: Default,Arial,20,16777215,255,0,0,0,0,1,2,2,2,10,10,10,0,1

[Fonts]

[Graphics]

[Events]
Format: Marked, Start, End, Style, Name, MarginL, MarginR, MarginV, Effect, Text
Dialogue: Marked=0,0:00:01.23,0:00:04.55,Default,,0,0,0,,Hello world
Dialogue: Marked=0,0:00:05.74,0:00:11.00,Default,,0,0,900,,This is vertically moved\nand has two lines.
Dialogue: Marked=0,0:00:07.74,0:00:09.00,Default,,0,0,0,,Some {\i1}italics{\i} are here.
Dialogue: Marked=0,0:00:09.23,0:00:11.56,Default,,0,0,0,,{\an1}bottom left
Dialogue: Marked=0,0:00:09.24,0:00:11.56,Default,,0,0,0,,{\an2}bottom centre
Dialogue: Marked=0,0:00:09.25,0:00:11.56,Default,,0,0,0,,{\an3}bottom right
Dialogue: Marked=0,0:00:09.26,0:00:11.56,Default,,0,0,0,,{\an4}middle left
Dialogue: Marked=0,0:00:09.27,0:00:11.56,Default,,0,0,0,,{\an5}middle centre
Dialogue: Marked=0,0:00:09.28,0:00:11.56,Default,,0,0,0,,{\an6}middle right
Dialogue: Marked=0,0:00:09.29,0:00:11.56,Default,,0,0,0,,{\an7}top left
Dialogue: Marked=0,0:00:09.30,0:00:11.56,Default,,0,0,0,,{\an8}top centre
Dialogue: Marked=0,0:00:09.31,0:00:11.56,Default,,0,0,0,,{\an9}top right
")%list.

(** /repo/test/data/test.vtt *)
Definition data_test_vtt : str :=
  (lit "WEBVTT - you can put something here
Some: people
Seem: to put stuff here

NOTE You can have notes
That span multiple lines

00:00:41.090 --> 00:00:42.210
This is a subtitle
and that's a line break

00:01:01.010 --> 00:01:02.100
This is some stuff.
")%list.

(** /repo/test/data/test2.srt *)
Definition data_test2_srt : str :=
  (lit "1
00:01:49,200 --> 00:01:52,351
This is a subtitle, and it goes 
over two lines.

2
00:01:52,440 --> 00:01:54,351
<b>We have emboldened this</b>

3
00:01:54,440 --> 00:01:56,590
<i>And italicised this.</i>

4
00:01:56,680 --> 00:01:58,955
Shall I compare thee to a summers' day?

5
00:02:00,840 --> 00:02:03,400
Is this a dagger I see before me?

6
00:03:54,560 --> 00:03:56,471
Hello world.

7
00:04:50,123 --> 00:04:55,023
<i>Some italics over
multiple lines</i>
")%list.

(** /repo/test/data/test2.ssa *)
Definition data_test2_ssa : str :=
  (lit "[Script Info]
Title: libsub test
ScriptType: v4.00
WrapStyle: 0
ScaledBorderAndShadow: yes
PlayResX: 1920
PlayResY: 1080

[V4 Styles]
Format: Name, Fontname, Fontsize, PrimaryColour, SecondaryColour, TertiaryColour, BackColour, Bold, Italic, BorderStyle, Outline, Shadow, Alignment, MarginL, MarginR, MarginV, AlphaLevel, Encoding
Style: Default,Arial,20,16777215,255,0,0,0,0,1,2,2,2,10,10,10,0,1

[Fonts]

[Graphics]

[Events]
Format: Marked, Start, End, Style, Name, MarginL, MarginR, MarginV, Effect, Text
Dialogue: Marked=0,0:00:01.23,0:00:04.55,Default,,0,0,0,,Hello world this is {\pos(400,300)}positioning.
")%list.

(** /repo/test/data/test3.srt *)
Definition data_test3_srt : str :=
  (lit "1
00:01:49,200 --> 00:01:52,351
{\an1}Let's go bottom left

2
00:01:52,440 --> 00:01:54,351
Now back to the middle

3
00:01:54,440 --> 00:01:56,590
{\an9}And top right

4
00:01:56,680 --> 00:01:58,955
And here we are again
")%list.

(** /repo/test/data/test3.ssa *)
Definition data_test3_ssa : str :=
  (lit "﻿[Script Info]
; Script generated by Aegisub 3.2.2
; http://www.aegisub.org/
Title: Default Aegisub file
ScriptType: v4.00+
WrapStyle: 0
ScaledBorderAndShadow: yes
PlayResX: 1920
PlayResY: 1080
YCbCr Matrix: TV.601

[V4+ Styles]
Format: Name, Fontname, Fontsize, PrimaryColour, SecondaryColour, OutlineColour, BackColour, Bold, Italic, Underline, StrikeOut, ScaleX, ScaleY, Spacing, Angle, BorderStyle, Outline, Shadow, Alignment, MarginL, MarginR, MarginV, Encoding
Style: Default,Helvetica Neue,60,&H00FFFFFF,&H000000FF,&H00000000,&H00000000,0,0,0,0,100,100,0,0,1,1.5,2,2,0,0,100,1
Style: Helvetica Neue 30,Helvetica Neue,30,&H00FFFFFF,&H000000FF,&H00000000,&H00000000,0,0,0,0,100,100,0,0,1,2,2,2,10,10,100,1
Style: Helvetica Neue 120pt,Helvetica Neue,120,&H00FFFFFF,&H000000FF,&H00000000,&H00000000,0,0,0,0,100,100,0,0,1,1.5,2,2,10,10,100,1
Style: Helvetica Neue 60 Top,Helvetica Neue,60,&H00FFFFFF,&H000000FF,&H00000000,&H00000000,0,0,0,0,100,100,0,0,1,1.5,2,8,10,10,100,1
Style: Helvetica Neue 60 Center,Helvetica Neue 60 Center,60,&H00FFFFFF,&H000000FF,&H00000000,&H00000000,0,0,0,0,100,100,0,0,1,1.5,2,5,10,10,100,1

[Events]
Format: Layer, Start, End, Style, Name, MarginL, MarginR, MarginV, Effect, Text
Dialogue: 0,0:00:01.00,0:00:03.00,Default,,0,0,0,,Helvetica Neue 60pt - Default\NBottom 100 pt off edge
Dialogue: 0,0:00:04.00,0:00:06.00,Helvetica Neue 30,,0,0,0,,Helvetica Neue 30pt\NBottom 100pt off edge
Dialogue: 0,0:00:07.00,0:00:09.00,Helvetica Neue 120pt,,0,0,0,,Helvetica Neue 120pt\NBottom 100pt off edge
Dialogue: 0,0:00:10.00,0:00:12.00,Helvetica Neue 60 Top,,0,0,0,,Helvetica Neue 60pt\NTop Alignment 100pt off edge
Dialogue: 0,0:00:13.00,0:00:15.00,Helvetica Neue 60 Center,,0,0,0,,Helvetica Neue 60pt\N Vertical Center Alignment
")%list.

(** /repo/test/data/test_text.stl *)
Definition data_test_text_stl : str :=
  (lit "$FontName = Arial
$Bold = False
$Italic = False
$Underlined = False
$FontSize = 42
// This is a comment which we should ignore
// These timecodes are H:M:S:F
00:00:41:09 , 00:00:42:21 , This is a subtitle | and that's a line break
00:01:01:01 , 00:01:02:10 , This is some ^Bbold^B and some ^B^Ibold italic^B^I and some ^Uunderlined^U.
")%list.
