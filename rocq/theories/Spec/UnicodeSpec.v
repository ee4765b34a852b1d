(** GENERATED by tools/gen_unicode.py from the Unicode character database (version 14.0.0). *)
From Coq Require Import ZArith List.
Import ListNotations.
Local Open Scope Z_scope.

(** (letter, combining mark, precomposed character): the canonical compositions of ASCII letters with these marks that lie in the
    blocks Latin-1 Supplement and Latin Extended-A, and g with acute. *)
Definition compositions : list (Z * Z * Z) :=
  [(65, 0x0300, 0x00c0); (69, 0x0300, 0x00c8); (73, 0x0300, 0x00cc); (79, 0x0300, 0x00d2); (85, 0x0300, 0x00d9);
   (97, 0x0300, 0x00e0); (101, 0x0300, 0x00e8); (105, 0x0300, 0x00ec); (111, 0x0300, 0x00f2);
   (117, 0x0300, 0x00f9); (65, 0x0301, 0x00c1); (67, 0x0301, 0x0106); (69, 0x0301, 0x00c9); (73, 0x0301, 0x00cd);
   (76, 0x0301, 0x0139); (78, 0x0301, 0x0143); (79, 0x0301, 0x00d3); (82, 0x0301, 0x0154); (83, 0x0301, 0x015a);
   (85, 0x0301, 0x00da); (89, 0x0301, 0x00dd); (90, 0x0301, 0x0179); (97, 0x0301, 0x00e1); (99, 0x0301, 0x0107);
   (101, 0x0301, 0x00e9); (103, 0x0301, 0x01f5); (105, 0x0301, 0x00ed); (108, 0x0301, 0x013a);
   (110, 0x0301, 0x0144); (111, 0x0301, 0x00f3); (114, 0x0301, 0x0155); (115, 0x0301, 0x015b);
   (117, 0x0301, 0x00fa); (121, 0x0301, 0x00fd); (122, 0x0301, 0x017a); (65, 0x0302, 0x00c2);
   (67, 0x0302, 0x0108); (69, 0x0302, 0x00ca); (71, 0x0302, 0x011c); (72, 0x0302, 0x0124); (73, 0x0302, 0x00ce);
   (74, 0x0302, 0x0134); (79, 0x0302, 0x00d4); (83, 0x0302, 0x015c); (85, 0x0302, 0x00db); (87, 0x0302, 0x0174);
   (89, 0x0302, 0x0176); (97, 0x0302, 0x00e2); (99, 0x0302, 0x0109); (101, 0x0302, 0x00ea); (103, 0x0302, 0x011d);
   (104, 0x0302, 0x0125); (105, 0x0302, 0x00ee); (106, 0x0302, 0x0135); (111, 0x0302, 0x00f4);
   (115, 0x0302, 0x015d); (117, 0x0302, 0x00fb); (119, 0x0302, 0x0175); (121, 0x0302, 0x0177);
   (65, 0x0303, 0x00c3); (73, 0x0303, 0x0128); (78, 0x0303, 0x00d1); (79, 0x0303, 0x00d5); (85, 0x0303, 0x0168);
   (97, 0x0303, 0x00e3); (105, 0x0303, 0x0129); (110, 0x0303, 0x00f1); (111, 0x0303, 0x00f5);
   (117, 0x0303, 0x0169); (65, 0x0304, 0x0100); (69, 0x0304, 0x0112); (73, 0x0304, 0x012a); (79, 0x0304, 0x014c);
   (85, 0x0304, 0x016a); (97, 0x0304, 0x0101); (101, 0x0304, 0x0113); (105, 0x0304, 0x012b);
   (111, 0x0304, 0x014d); (117, 0x0304, 0x016b); (65, 0x0306, 0x0102); (69, 0x0306, 0x0114); (71, 0x0306, 0x011e);
   (73, 0x0306, 0x012c); (79, 0x0306, 0x014e); (85, 0x0306, 0x016c); (97, 0x0306, 0x0103); (101, 0x0306, 0x0115);
   (103, 0x0306, 0x011f); (105, 0x0306, 0x012d); (111, 0x0306, 0x014f); (117, 0x0306, 0x016d);
   (67, 0x0307, 0x010a); (69, 0x0307, 0x0116); (71, 0x0307, 0x0120); (73, 0x0307, 0x0130); (90, 0x0307, 0x017b);
   (99, 0x0307, 0x010b); (101, 0x0307, 0x0117); (103, 0x0307, 0x0121); (122, 0x0307, 0x017c);
   (65, 0x0308, 0x00c4); (69, 0x0308, 0x00cb); (73, 0x0308, 0x00cf); (79, 0x0308, 0x00d6); (85, 0x0308, 0x00dc);
   (89, 0x0308, 0x0178); (97, 0x0308, 0x00e4); (101, 0x0308, 0x00eb); (105, 0x0308, 0x00ef);
   (111, 0x0308, 0x00f6); (117, 0x0308, 0x00fc); (121, 0x0308, 0x00ff); (65, 0x030a, 0x00c5);
   (85, 0x030a, 0x016e); (97, 0x030a, 0x00e5); (117, 0x030a, 0x016f); (67, 0x0327, 0x00c7); (71, 0x0327, 0x0122);
   (75, 0x0327, 0x0136); (76, 0x0327, 0x013b); (78, 0x0327, 0x0145); (82, 0x0327, 0x0156); (83, 0x0327, 0x015e);
   (84, 0x0327, 0x0162); (99, 0x0327, 0x00e7); (103, 0x0327, 0x0123); (107, 0x0327, 0x0137);
   (108, 0x0327, 0x013c); (110, 0x0327, 0x0146); (114, 0x0327, 0x0157); (115, 0x0327, 0x015f);
   (116, 0x0327, 0x0163); (79, 0x030b, 0x0150); (85, 0x030b, 0x0170); (111, 0x030b, 0x0151);
   (117, 0x030b, 0x0171); (65, 0x0328, 0x0104); (69, 0x0328, 0x0118); (73, 0x0328, 0x012e); (85, 0x0328, 0x0172);
   (97, 0x0328, 0x0105); (101, 0x0328, 0x0119); (105, 0x0328, 0x012f); (117, 0x0328, 0x0173);
   (67, 0x030c, 0x010c); (68, 0x030c, 0x010e); (69, 0x030c, 0x011a); (76, 0x030c, 0x013d); (78, 0x030c, 0x0147);
   (82, 0x030c, 0x0158); (83, 0x030c, 0x0160); (84, 0x030c, 0x0164); (90, 0x030c, 0x017d); (99, 0x030c, 0x010d);
   (100, 0x030c, 0x010f); (101, 0x030c, 0x011b); (108, 0x030c, 0x013e); (110, 0x030c, 0x0148);
   (114, 0x030c, 0x0159); (115, 0x030c, 0x0161); (116, 0x030c, 0x0165); (122, 0x030c, 0x017e)].
