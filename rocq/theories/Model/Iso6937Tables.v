(** GENERATED by tools/gen_tables.py from /repo/src/iso6937_tables.cc. *)
From Coq Require Import ZArith List.
Import ListNotations.
Local Open Scope Z_scope.

(** A std::map<char, wchar_t>: pairs of key (as an unsigned byte) and value, in the order of the map, which is
    that of signed char (128 to 255 come before 0 to 127). *)
Definition cmap : Type := list (Z * Z).

(** iso6937::grave, iso6937_tables.cc 48-57. *)
Definition iso_grave : cmap :=
  [(65, 0x00c0); (69, 0x00c8); (73, 0x00cc); (79, 0x00d2); (85, 0x00d9); (97, 0x00e0); (101, 0x00e8); (105, 0x00ec);
   (111, 0x00f2); (117, 0x00f9)].

(** iso6937::acute, iso6937_tables.cc 59-83. *)
Definition iso_acute : cmap :=
  [(65, 0x00c1); (67, 0x0106); (69, 0x00c9); (73, 0x00cd); (76, 0x0139); (78, 0x0143); (79, 0x00d3); (82, 0x0154);
   (83, 0x015a); (85, 0x00da); (89, 0x00dd); (90, 0x0179); (97, 0x00e1); (99, 0x0107); (101, 0x00e9); (103, 0x01f5);
   (105, 0x00ed); (108, 0x013a); (110, 0x0144); (111, 0x00f3); (114, 0x0155); (115, 0x015b); (117, 0x00fa); (121, 0x00fd);
   (122, 0x017a)].

(** iso6937::circumflex, iso6937_tables.cc 85-108. *)
Definition iso_circumflex : cmap :=
  [(65, 0x00c2); (67, 0x0108); (69, 0x00ca); (71, 0x011c); (72, 0x0124); (73, 0x00ce); (74, 0x0134); (79, 0x00d4);
   (83, 0x015c); (85, 0x00db); (87, 0x0174); (89, 0x0176); (97, 0x00e2); (99, 0x0109); (101, 0x00ea); (103, 0x011d);
   (104, 0x0125); (105, 0x00ee); (106, 0x0135); (111, 0x00f4); (115, 0x015d); (117, 0x00fb); (119, 0x0175); (121, 0x0177)].

(** iso6937::tilde, iso6937_tables.cc 110-119. *)
Definition iso_tilde : cmap :=
  [(65, 0x00c3); (73, 0x0128); (78, 0x00d1); (79, 0x00d5); (85, 0x0168); (97, 0x00e3); (105, 0x0129); (110, 0x00f1);
   (111, 0x00f5); (117, 0x0169)].

(** iso6937::macron, iso6937_tables.cc 121-130. *)
Definition iso_macron : cmap :=
  [(65, 0x0100); (69, 0x0112); (73, 0x012a); (79, 0x014c); (85, 0x016a); (97, 0x0101); (101, 0x0113); (105, 0x012b);
   (111, 0x014d); (117, 0x016b)].

(** iso6937::breve, iso6937_tables.cc 132-137. *)
Definition iso_breve : cmap :=
  [(65, 0x0102); (71, 0x011e); (85, 0x016c); (97, 0x0103); (103, 0x011f); (117, 0x016d)].

(** iso6937::dot, iso6937_tables.cc 139-147. *)
Definition iso_dot : cmap :=
  [(67, 0x010a); (69, 0x0116); (71, 0x0120); (73, 0x0130); (90, 0x017b); (99, 0x010b); (101, 0x0117); (103, 0x0121);
   (122, 0x017c)].

(** iso6937::diaeresis, iso6937_tables.cc 149-160. *)
Definition iso_diaeresis : cmap :=
  [(65, 0x00c4); (69, 0x00cb); (73, 0x00cf); (79, 0x00d6); (85, 0x00dc); (89, 0x0178); (97, 0x00e4); (101, 0x00eb);
   (105, 0x00ef); (111, 0x00f6); (117, 0x00fc); (121, 0x00ff)].

(** iso6937::ring, iso6937_tables.cc 162-165. *)
Definition iso_ring : cmap :=
  [(65, 0x00c5); (85, 0x016e); (97, 0x00e5); (117, 0x016f)].

(** iso6937::cedilla, iso6937_tables.cc 167-181. *)
Definition iso_cedilla : cmap :=
  [(67, 0x00c7); (71, 0x0122); (75, 0x0136); (76, 0x013b); (78, 0x0145); (82, 0x0156); (83, 0x015e); (84, 0x0162);
   (99, 0x00e7); (107, 0x0137); (108, 0x013c); (110, 0x0146); (114, 0x0157); (115, 0x015f); (116, 0x0163)].

(** iso6937::double_acute, iso6937_tables.cc 183-186. *)
Definition iso_double_acute : cmap :=
  [(79, 0x0150); (85, 0x0170); (111, 0x0151); (117, 0x0171)].

(** iso6937::ogonek, iso6937_tables.cc 188-195. *)
Definition iso_ogonek : cmap :=
  [(65, 0x0104); (69, 0x0118); (73, 0x012e); (85, 0x0172); (97, 0x0105); (101, 0x0119); (105, 0x012f); (117, 0x0173)].

(** iso6937::caron, iso6937_tables.cc 197-214. *)
Definition iso_caron : cmap :=
  [(67, 0x010c); (68, 0x010e); (69, 0x011a); (76, 0x013d); (78, 0x0147); (82, 0x0158); (83, 0x0160); (84, 0x0164);
   (90, 0x017d); (99, 0x010d); (100, 0x010f); (101, 0x011b); (108, 0x013e); (110, 0x0148); (114, 0x0159); (115, 0x0161);
   (116, 0x0165); (122, 0x017e)].

(** iso6937::main, iso6937_tables.cc 216-397. *)
Definition iso_main : cmap :=
  [(161, 0x00a1); (162, 0x00a2); (163, 0x00a3); (164, 0x0024); (165, 0x00a5); (167, 0x00a7); (168, 0x00a4); (169, 0x2018);
   (170, 0x201c); (171, 0x00ab); (172, 0x2190); (173, 0x2191); (174, 0x2192); (175, 0x2193); (176, 0x00b0); (177, 0x00b1);
   (178, 0x00b2); (179, 0x00b3); (180, 0x00d7); (181, 0x00b5); (182, 0x00b6); (183, 0x00b7); (184, 0x00f7); (185, 0x2019);
   (186, 0x201d); (187, 0x00bb); (188, 0x00bc); (189, 0x00bd); (190, 0x00be); (191, 0x00bf); (193, 0x0300); (194, 0x0301);
   (195, 0x0302); (196, 0x0303); (197, 0x0304); (198, 0x0306); (199, 0x0307); (200, 0x0308); (202, 0x030a); (203, 0x0327);
   (205, 0x030b); (206, 0x032b); (207, 0x030c); (208, 0x2015); (209, 0x00b9); (210, 0x00ae); (211, 0x00a9); (212, 0x2122);
   (213, 0x266a); (214, 0x00ac); (215, 0x00a6); (220, 0x215b); (221, 0x215c); (222, 0x215d); (223, 0x215e); (224, 0x2126);
   (225, 0x00c6); (226, 0x0110); (227, 0x00aa); (228, 0x0126); (230, 0x0132); (231, 0x013f); (232, 0x0141); (233, 0x00d8);
   (234, 0x0152); (235, 0x00ba); (236, 0x00de); (237, 0x0166); (238, 0x014a); (239, 0x0149); (240, 0x0138); (241, 0x00e6);
   (242, 0x0111); (243, 0x00f0); (244, 0x0127); (245, 0x0131); (246, 0x0133); (247, 0x0140); (248, 0x0142); (249, 0x00f8);
   (250, 0x0153); (251, 0x00df); (252, 0x00fe); (253, 0x0167); (254, 0x014b); (255, 0x00ad); (10, 0x000a); (32, 0x0020);
   (33, 0x0021); (34, 0x0022); (35, 0x0023); (36, 0x0024); (37, 0x0025); (38, 0x0026); (39, 0x0027); (40, 0x0028);
   (41, 0x0029); (42, 0x002a); (43, 0x002b); (44, 0x002c); (45, 0x002d); (46, 0x002e); (47, 0x002f); (48, 0x0030);
   (49, 0x0031); (50, 0x0032); (51, 0x0033); (52, 0x0034); (53, 0x0035); (54, 0x0036); (55, 0x0037); (56, 0x0038);
   (57, 0x0039); (58, 0x003a); (59, 0x003b); (60, 0x003c); (61, 0x003d); (62, 0x003e); (63, 0x003f); (64, 0x0040);
   (65, 0x0041); (66, 0x0042); (67, 0x0043); (68, 0x0044); (69, 0x0045); (70, 0x0046); (71, 0x0047); (72, 0x0048);
   (73, 0x0049); (74, 0x004a); (75, 0x004b); (76, 0x004c); (77, 0x004d); (78, 0x004e); (79, 0x004f); (80, 0x0050);
   (81, 0x0051); (82, 0x0052); (83, 0x0053); (84, 0x0054); (85, 0x0055); (86, 0x0056); (87, 0x0057); (88, 0x0058);
   (89, 0x0059); (90, 0x005a); (91, 0x005b); (92, 0x005c); (93, 0x005d); (94, 0x005e); (95, 0x005f); (96, 0x0060);
   (97, 0x0061); (98, 0x0062); (99, 0x0063); (100, 0x0064); (101, 0x0065); (102, 0x0066); (103, 0x0067); (104, 0x0068);
   (105, 0x0069); (106, 0x006a); (107, 0x006b); (108, 0x006c); (109, 0x006d); (110, 0x006e); (111, 0x006f); (112, 0x0070);
   (113, 0x0071); (114, 0x0072); (115, 0x0073); (116, 0x0074); (117, 0x0075); (118, 0x0076); (119, 0x0077); (120, 0x0078);
   (121, 0x0079); (122, 0x007a); (123, 0x007b); (124, 0x007c); (125, 0x007d); (126, 0x007e)].

(** iso6937::diacriticals, iso6937_tables.cc 399-411. *)
Definition iso_diacriticals : list (Z * cmap) :=
  [(0xc1, iso_grave);
   (0xc2, iso_acute);
   (0xc3, iso_circumflex);
   (0xc4, iso_tilde);
   (0xc5, iso_macron);
   (0xc6, iso_breve);
   (0xc7, iso_dot);
   (0xc8, iso_diaeresis);
   (0xca, iso_ring);
   (0xcb, iso_cedilla);
   (0xcd, iso_double_acute);
   (0xce, iso_ogonek);
   (0xcf, iso_caron)].
