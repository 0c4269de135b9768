(** Model of draw/iosevka/font.go, and of the parts of golang.org/x/image/font
    (DrawString, BoundString), golang.org/x/image/font/basicfont (Face) and image/draw
    (DrawMask) that draw a text with it on a picture of draw/common.go.

    The libraries are modelled from their source at the versions of the go.mod
    (x/image c73c2afc3b81 of 2018).  Go's ints and fixed.Int26_6 do not overflow here
    (sizes of pictures); a text is its list of characters (runes). *)
From Coq Require Import ZArith List Bool.
From Verif Require Import Base Merge Draw Axis.
Import ListNotations.
Open Scope Z_scope.

(** font.go:29-1563 Mask.Pix: the rows of the glyphs, with the character named in
    the comment above each *)
Definition iosevka_glyphs : list (Z * list (list Z)) := [
  (0x0d, [ (* U+000D *)
      [0x00; 0x00; 0x00; 0x00; 0x00; 0x00]; [0x00; 0x00; 0x00; 0x00; 0x00; 0x00];
      [0x00; 0x00; 0x00; 0x00; 0x00; 0x00]; [0x00; 0x00; 0x00; 0x00; 0x00; 0x00];
      [0x00; 0x00; 0x00; 0x00; 0x00; 0x00]; [0x00; 0x00; 0x00; 0x00; 0x00; 0x00];
      [0x00; 0x00; 0x00; 0x00; 0x00; 0x00]; [0x00; 0x00; 0x00; 0x00; 0x00; 0x00];
      [0x00; 0x00; 0x00; 0x00; 0x00; 0x00]; [0x00; 0x00; 0x00; 0x00; 0x00; 0x00];
      [0x00; 0x00; 0x00; 0x00; 0x00; 0x00]; [0x00; 0x00; 0x00; 0x00; 0x00; 0x00];
      [0x00; 0x00; 0x00; 0x00; 0x00; 0x00]; [0x00; 0x00; 0x00; 0x00; 0x00; 0x00]]);
  (0x20, [ (* U+0020 *)
      [0x00; 0x00; 0x00; 0x00; 0x00; 0x00]; [0x00; 0x00; 0x00; 0x00; 0x00; 0x00];
      [0x00; 0x00; 0x00; 0x00; 0x00; 0x00]; [0x00; 0x00; 0x00; 0x00; 0x00; 0x00];
      [0x00; 0x00; 0x00; 0x00; 0x00; 0x00]; [0x00; 0x00; 0x00; 0x00; 0x00; 0x00];
      [0x00; 0x00; 0x00; 0x00; 0x00; 0x00]; [0x00; 0x00; 0x00; 0x00; 0x00; 0x00];
      [0x00; 0x00; 0x00; 0x00; 0x00; 0x00]; [0x00; 0x00; 0x00; 0x00; 0x00; 0x00];
      [0x00; 0x00; 0x00; 0x00; 0x00; 0x00]; [0x00; 0x00; 0x00; 0x00; 0x00; 0x00];
      [0x00; 0x00; 0x00; 0x00; 0x00; 0x00]; [0x00; 0x00; 0x00; 0x00; 0x00; 0x00]]);
  (0x21, [ (* U+0021 *)
      [0x00; 0x00; 0x00; 0x00; 0x00; 0x00]; [0x00; 0x00; 0x00; 0x00; 0x00; 0x00];
      [0x00; 0x00; 0x4e; 0x4e; 0x00; 0x00]; [0x00; 0x00; 0x60; 0x60; 0x00; 0x00];
      [0x00; 0x00; 0x60; 0x60; 0x00; 0x00]; [0x00; 0x00; 0x60; 0x60; 0x00; 0x00];
      [0x00; 0x00; 0x60; 0x60; 0x00; 0x00]; [0x00; 0x00; 0x54; 0x54; 0x00; 0x00];
      [0x00; 0x00; 0x00; 0x00; 0x00; 0x00]; [0x00; 0x00; 0x1f; 0x1f; 0x00; 0x00];
      [0x00; 0x00; 0xa1; 0xa0; 0x00; 0x00]; [0x00; 0x00; 0x05; 0x05; 0x00; 0x00];
      [0x00; 0x00; 0x00; 0x00; 0x00; 0x00]; [0x00; 0x00; 0x00; 0x00; 0x00; 0x00]]);
  (0x22, [ (* U+0022 *)
      [0x00; 0x00; 0x00; 0x00; 0x00; 0x00]; [0x00; 0x29; 0x0d; 0x0d; 0x28; 0x00];
      [0x00; 0x9c; 0x30; 0x34; 0x98; 0x00]; [0x00; 0x9c; 0x2f; 0x34; 0x97; 0x00];
      [0x00; 0x98; 0x2a; 0x30; 0x92; 0x00]; [0x00; 0x56; 0x17; 0x18; 0x55; 0x00];
      [0x00; 0x00; 0x00; 0x00; 0x00; 0x00]; [0x00; 0x00; 0x00; 0x00; 0x00; 0x00];
      [0x00; 0x00; 0x00; 0x00; 0x00; 0x00]; [0x00; 0x00; 0x00; 0x00; 0x00; 0x00];
      [0x00; 0x00; 0x00; 0x00; 0x00; 0x00]; [0x00; 0x00; 0x00; 0x00; 0x00; 0x00];
      [0x00; 0x00; 0x00; 0x00; 0x00; 0x00]; [0x00; 0x00; 0x00; 0x00; 0x00; 0x00]]);
  (0x23, [ (* U+0023 *)
      [0x00; 0x00; 0x00; 0x00; 0x00; 0x00]; [0x00; 0x61; 0x37; 0x37; 0x61; 0x00];
      [0x00; 0x78; 0x44; 0x44; 0x78; 0x00]; [0x00; 0x78; 0x44; 0x44; 0x78; 0x00];
      [0x60; 0xd3; 0xc2; 0xc2; 0xd3; 0x60]; [0x00; 0x78; 0x44; 0x44; 0x78; 0x00];
      [0x00; 0x78; 0x44; 0x44; 0x78; 0x00]; [0x00; 0x78; 0x44; 0x44; 0x78; 0x00];
      [0x4e; 0xc2; 0xaa; 0xaa; 0xc2; 0x4e]; [0x12; 0x89; 0x5b; 0x5b; 0x89; 0x12];
      [0x00; 0x78; 0x44; 0x44; 0x78; 0x00]; [0x00; 0x78; 0x44; 0x44; 0x78; 0x00];
      [0x00; 0x07; 0x04; 0x04; 0x07; 0x00]; [0x00; 0x00; 0x00; 0x00; 0x00; 0x00]]);
  (0x24, [ (* U+0024 *)
      [0x00; 0x00; 0x06; 0x06; 0x00; 0x00]; [0x00; 0x00; 0x60; 0x60; 0x00; 0x00];
      [0x00; 0x14; 0x9e; 0x9f; 0x1b; 0x00]; [0x09; 0xc2; 0x96; 0x91; 0xc2; 0x12];
      [0x36; 0x8c; 0x60; 0x60; 0x40; 0x22]; [0x0a; 0xc8; 0x82; 0x60; 0x00; 0x00];
      [0x00; 0x28; 0xcb; 0xae; 0x10; 0x00]; [0x00; 0x00; 0x60; 0x9e; 0xbf; 0x02];
      [0x17; 0x27; 0x60; 0x60; 0x91; 0x30]; [0x1f; 0xbb; 0x75; 0x7a; 0xc4; 0x0f];
      [0x00; 0x3b; 0xbc; 0xb8; 0x30; 0x00]; [0x00; 0x00; 0x60; 0x60; 0x00; 0x00];
      [0x00; 0x00; 0x16; 0x16; 0x00; 0x00]; [0x00; 0x00; 0x00; 0x00; 0x00; 0x00]]);
  (0x25, [ (* U+0025 *)
      [0x00; 0x00; 0x00; 0x00; 0x00; 0x00]; [0x00; 0x00; 0x00; 0x00; 0x00; 0x00];
      [0x30; 0xb9; 0x00; 0x00; 0x9b; 0x10]; [0x3c; 0xe4; 0x00; 0x25; 0xae; 0x00];
      [0x30; 0xb9; 0x00; 0x8e; 0x46; 0x00]; [0x00; 0x00; 0x09; 0xc9; 0x01; 0x00];
      [0x00; 0x00; 0x62; 0x72; 0x00; 0x00]; [0x00; 0x00; 0xc2; 0x10; 0x00; 0x00];
      [0x00; 0x36; 0x9e; 0x00; 0x95; 0x27]; [0x00; 0xa0; 0x34; 0x00; 0xe4; 0x3c];
      [0x11; 0xc2; 0x00; 0x00; 0xe4; 0x3c]; [0x00; 0x00; 0x00; 0x00; 0x00; 0x00];
      [0x00; 0x00; 0x00; 0x00; 0x00; 0x00]; [0x00; 0x00; 0x00; 0x00; 0x00; 0x00]]);
  (0x26, [ (* U+0026 *)
      [0x00; 0x00; 0x00; 0x00; 0x00; 0x00]; [0x00; 0x00; 0x00; 0x00; 0x00; 0x00];
      [0x00; 0x59; 0xb7; 0xb4; 0x1f; 0x00]; [0x00; 0xc7; 0x02; 0x33; 0x93; 0x00];
      [0x00; 0xbf; 0x00; 0x2d; 0x96; 0x00]; [0x00; 0xa5; 0x42; 0xb8; 0x28; 0x00];
      [0x00; 0x4a; 0xfe; 0x3b; 0x2d; 0x23]; [0x0c; 0xc3; 0x52; 0xb1; 0x73; 0x54];
      [0x4a; 0x78; 0x00; 0x46; 0xe8; 0x52]; [0x33; 0x99; 0x00; 0x00; 0xb1; 0x55];
      [0x00; 0x8d; 0xa8; 0xab; 0xa5; 0x99]; [0x00; 0x00; 0x09; 0x09; 0x00; 0x00];
      [0x00; 0x00; 0x00; 0x00; 0x00; 0x00]; [0x00; 0x00; 0x00; 0x00; 0x00; 0x00]]);
  (0x27, [ (* U+0027 *)
      [0x00; 0x00; 0x00; 0x00; 0x00; 0x00]; [0x00; 0x00; 0x1b; 0x1b; 0x00; 0x00];
      [0x00; 0x00; 0x68; 0x64; 0x00; 0x00]; [0x00; 0x00; 0x68; 0x63; 0x00; 0x00];
      [0x00; 0x00; 0x64; 0x5e; 0x00; 0x00]; [0x00; 0x00; 0x37; 0x36; 0x00; 0x00];
      [0x00; 0x00; 0x00; 0x00; 0x00; 0x00]; [0x00; 0x00; 0x00; 0x00; 0x00; 0x00];
      [0x00; 0x00; 0x00; 0x00; 0x00; 0x00]; [0x00; 0x00; 0x00; 0x00; 0x00; 0x00];
      [0x00; 0x00; 0x00; 0x00; 0x00; 0x00]; [0x00; 0x00; 0x00; 0x00; 0x00; 0x00];
      [0x00; 0x00; 0x00; 0x00; 0x00; 0x00]; [0x00; 0x00; 0x00; 0x00; 0x00; 0x00]]);
  (0x28, [ (* U+0028 *)
      [0x00; 0x00; 0x00; 0x18; 0xb1; 0x09]; [0x00; 0x00; 0x07; 0xbf; 0x2d; 0x00];
      [0x00; 0x00; 0x78; 0x60; 0x00; 0x00]; [0x00; 0x00; 0xc4; 0x02; 0x00; 0x00];
      [0x00; 0x23; 0x9e; 0x00; 0x00; 0x00]; [0x00; 0x4a; 0x77; 0x00; 0x00; 0x00];
      [0x00; 0x56; 0x68; 0x00; 0x00; 0x00]; [0x00; 0x4d; 0x71; 0x00; 0x00; 0x00];
      [0x00; 0x2e; 0x92; 0x00; 0x00; 0x00]; [0x00; 0x03; 0xbf; 0x00; 0x00; 0x00];
      [0x00; 0x00; 0x93; 0x3c; 0x00; 0x00]; [0x00; 0x00; 0x16; 0xc3; 0x0f; 0x00];
      [0x00; 0x00; 0x00; 0x36; 0xbc; 0x09]; [0x00; 0x00; 0x00; 0x00; 0x0f; 0x00]]);
  (0x29, [ (* U+0029 *)
      [0x0a; 0xb1; 0x16; 0x00; 0x00; 0x00]; [0x00; 0x30; 0xbb; 0x06; 0x00; 0x00];
      [0x00; 0x00; 0x61; 0x75; 0x00; 0x00]; [0x00; 0x00; 0x02; 0xbe; 0x00; 0x00];
      [0x00; 0x00; 0x00; 0x9e; 0x1d; 0x00]; [0x00; 0x00; 0x00; 0x77; 0x44; 0x00];
      [0x00; 0x00; 0x00; 0x68; 0x52; 0x00]; [0x00; 0x00; 0x00; 0x71; 0x48; 0x00];
      [0x00; 0x00; 0x00; 0x92; 0x26; 0x00]; [0x00; 0x00; 0x00; 0xba; 0x02; 0x00];
      [0x00; 0x00; 0x3c; 0x8f; 0x00; 0x00]; [0x00; 0x11; 0xc3; 0x15; 0x00; 0x00];
      [0x0a; 0xbd; 0x33; 0x00; 0x00; 0x00]; [0x00; 0x0f; 0x00; 0x00; 0x00; 0x00]]);
  (0x2a, [ (* U+002A *)
      [0x00; 0x00; 0x00; 0x00; 0x00; 0x00]; [0x00; 0x00; 0x00; 0x00; 0x00; 0x00];
      [0x00; 0x00; 0x00; 0x00; 0x00; 0x00]; [0x00; 0x00; 0x00; 0x00; 0x00; 0x00];
      [0x00; 0x00; 0x55; 0x53; 0x00; 0x00]; [0x2b; 0x36; 0x58; 0x54; 0x36; 0x2a];
      [0x1c; 0x72; 0xc9; 0xc8; 0x72; 0x1c]; [0x00; 0x1f; 0xab; 0xab; 0x1d; 0x00];
      [0x00; 0x72; 0x1e; 0x20; 0x71; 0x00]; [0x00; 0x00; 0x00; 0x00; 0x00; 0x00];
      [0x00; 0x00; 0x00; 0x00; 0x00; 0x00]; [0x00; 0x00; 0x00; 0x00; 0x00; 0x00];
      [0x00; 0x00; 0x00; 0x00; 0x00; 0x00]; [0x00; 0x00; 0x00; 0x00; 0x00; 0x00]]);
  (0x2b, [ (* U+002B *)
      [0x00; 0x00; 0x00; 0x00; 0x00; 0x00]; [0x00; 0x00; 0x00; 0x00; 0x00; 0x00];
      [0x00; 0x00; 0x00; 0x00; 0x00; 0x00]; [0x00; 0x00; 0x00; 0x00; 0x00; 0x00];
      [0x00; 0x00; 0x51; 0x51; 0x00; 0x00]; [0x00; 0x00; 0x60; 0x60; 0x00; 0x00];
      [0x28; 0xac; 0xcb; 0xcb; 0xac; 0x28]; [0x00; 0x00; 0x60; 0x60; 0x00; 0x00];
      [0x00; 0x00; 0x60; 0x60; 0x00; 0x00]; [0x00; 0x00; 0x07; 0x07; 0x00; 0x00];
      [0x00; 0x00; 0x00; 0x00; 0x00; 0x00]; [0x00; 0x00; 0x00; 0x00; 0x00; 0x00];
      [0x00; 0x00; 0x00; 0x00; 0x00; 0x00]; [0x00; 0x00; 0x00; 0x00; 0x00; 0x00]]);
  (0x2c, [ (* U+002C *)
      [0x00; 0x00; 0x00; 0x00; 0x00; 0x00]; [0x00; 0x00; 0x00; 0x00; 0x00; 0x00];
      [0x00; 0x00; 0x00; 0x00; 0x00; 0x00]; [0x00; 0x00; 0x00; 0x00; 0x00; 0x00];
      [0x00; 0x00; 0x00; 0x00; 0x00; 0x00]; [0x00; 0x00; 0x00; 0x00; 0x00; 0x00];
      [0x00; 0x00; 0x00; 0x00; 0x00; 0x00]; [0x00; 0x00; 0x00; 0x00; 0x00; 0x00];
      [0x00; 0x00; 0x00; 0x00; 0x00; 0x00]; [0x00; 0x00; 0x42; 0x42; 0x00; 0x00];
      [0x00; 0x00; 0xb5; 0xbf; 0x00; 0x00]; [0x00; 0x00; 0x2a; 0x9b; 0x00; 0x00];
      [0x00; 0x00; 0x87; 0x40; 0x00; 0x00]; [0x00; 0x00; 0x3a; 0x00; 0x00; 0x00]]);
  (0x2d, [ (* U+002D *)
      [0x00; 0x00; 0x00; 0x00; 0x00; 0x00]; [0x00; 0x00; 0x00; 0x00; 0x00; 0x00];
      [0x00; 0x00; 0x00; 0x00; 0x00; 0x00]; [0x00; 0x00; 0x00; 0x00; 0x00; 0x00];
      [0x00; 0x00; 0x00; 0x00; 0x00; 0x00]; [0x00; 0x00; 0x00; 0x00; 0x00; 0x00];
      [0x28; 0xac; 0xac; 0xac; 0xac; 0x28]; [0x00; 0x00; 0x00; 0x00; 0x00; 0x00];
      [0x00; 0x00; 0x00; 0x00; 0x00; 0x00]; [0x00; 0x00; 0x00; 0x00; 0x00; 0x00];
      [0x00; 0x00; 0x00; 0x00; 0x00; 0x00]; [0x00; 0x00; 0x00; 0x00; 0x00; 0x00];
      [0x00; 0x00; 0x00; 0x00; 0x00; 0x00]; [0x00; 0x00; 0x00; 0x00; 0x00; 0x00]]);
  (0x2e, [ (* U+002E *)
      [0x00; 0x00; 0x00; 0x00; 0x00; 0x00]; [0x00; 0x00; 0x00; 0x00; 0x00; 0x00];
      [0x00; 0x00; 0x00; 0x00; 0x00; 0x00]; [0x00; 0x00; 0x00; 0x00; 0x00; 0x00];
      [0x00; 0x00; 0x00; 0x00; 0x00; 0x00]; [0x00; 0x00; 0x00; 0x00; 0x00; 0x00];
      [0x00; 0x00; 0x00; 0x00; 0x00; 0x00]; [0x00; 0x00; 0x00; 0x00; 0x00; 0x00];
      [0x00; 0x00; 0x00; 0x00; 0x00; 0x00]; [0x00; 0x00; 0x42; 0x42; 0x00; 0x00];
      [0x00; 0x00; 0xb5; 0xb4; 0x00; 0x00]; [0x00; 0x00; 0x06; 0x05; 0x00; 0x00];
      [0x00; 0x00; 0x00; 0x00; 0x00; 0x00]; [0x00; 0x00; 0x00; 0x00; 0x00; 0x00]]);
  (0x2f, [ (* U+002F *)
      [0x00; 0x00; 0x00; 0x00; 0x78; 0x20]; [0x00; 0x00; 0x00; 0x00; 0xc3; 0x00];
      [0x00; 0x00; 0x00; 0x2a; 0x9a; 0x00]; [0x00; 0x00; 0x00; 0x76; 0x4e; 0x00];
      [0x00; 0x00; 0x00; 0xb9; 0x0a; 0x00]; [0x00; 0x00; 0x11; 0xb2; 0x00; 0x00];
      [0x00; 0x00; 0x5a; 0x6a; 0x00; 0x00]; [0x00; 0x00; 0xa5; 0x1e; 0x00; 0x00];
      [0x00; 0x03; 0xc0; 0x00; 0x00; 0x00]; [0x00; 0x3e; 0x86; 0x00; 0x00; 0x00];
      [0x00; 0x8a; 0x3a; 0x00; 0x00; 0x00]; [0x00; 0xc1; 0x02; 0x00; 0x00; 0x00];
      [0x22; 0xa1; 0x00; 0x00; 0x00; 0x00]; [0x01; 0x01; 0x00; 0x00; 0x00; 0x00]]);
  (0x30, [ (* U+0030 *)
      [0x00; 0x00; 0x00; 0x00; 0x00; 0x00]; [0x00; 0x00; 0x00; 0x00; 0x00; 0x00];
      [0x00; 0x59; 0xb6; 0xb6; 0x56; 0x00]; [0x17; 0xbb; 0x02; 0x03; 0xbd; 0x15];
      [0x4b; 0x73; 0x00; 0x00; 0x75; 0x48]; [0x54; 0x6c; 0x00; 0x00; 0x6c; 0x54];
      [0x54; 0x6c; 0x83; 0x81; 0x6c; 0x54]; [0x54; 0x6c; 0x0e; 0x0e; 0x6c; 0x54];
      [0x4e; 0x6f; 0x00; 0x00; 0x72; 0x4d]; [0x23; 0xa9; 0x00; 0x00; 0xab; 0x1f];
      [0x00; 0x7e; 0xac; 0xad; 0x7c; 0x00]; [0x00; 0x00; 0x08; 0x08; 0x00; 0x00];
      [0x00; 0x00; 0x00; 0x00; 0x00; 0x00]; [0x00; 0x00; 0x00; 0x00; 0x00; 0x00]]);
  (0x31, [ (* U+0031 *)
      [0x00; 0x00; 0x00; 0x00; 0x00; 0x00]; [0x00; 0x00; 0x00; 0x00; 0x00; 0x00];
      [0x00; 0x07; 0x83; 0x98; 0x00; 0x00]; [0x09; 0xb9; 0x52; 0xbc; 0x00; 0x00];
      [0x00; 0x05; 0x04; 0xbc; 0x00; 0x00]; [0x00; 0x00; 0x04; 0xbc; 0x00; 0x00];
      [0x00; 0x00; 0x04; 0xbc; 0x00; 0x00]; [0x00; 0x00; 0x04; 0xbc; 0x00; 0x00];
      [0x00; 0x00; 0x04; 0xbc; 0x00; 0x00]; [0x00; 0x00; 0x04; 0xbc; 0x00; 0x00];
      [0x00; 0x00; 0x04; 0xbc; 0x00; 0x00]; [0x00; 0x00; 0x00; 0x00; 0x00; 0x00];
      [0x00; 0x00; 0x00; 0x00; 0x00; 0x00]; [0x00; 0x00; 0x00; 0x00; 0x00; 0x00]]);
  (0x32, [ (* U+0032 *)
      [0x00; 0x00; 0x00; 0x00; 0x00; 0x00]; [0x00; 0x00; 0x00; 0x00; 0x00; 0x00];
      [0x00; 0x68; 0xb4; 0xb3; 0x5f; 0x00]; [0x27; 0xae; 0x00; 0x02; 0xb5; 0x1e];
      [0x04; 0x0d; 0x00; 0x00; 0x82; 0x3c]; [0x00; 0x00; 0x00; 0x08; 0xc1; 0x0b];
      [0x00; 0x00; 0x0a; 0xac; 0x45; 0x00]; [0x00; 0x13; 0xbb; 0x3d; 0x00; 0x00];
      [0x00; 0xac; 0x3b; 0x00; 0x00; 0x00]; [0x13; 0xb3; 0x00; 0x00; 0x00; 0x00];
      [0x32; 0xdb; 0xac; 0xac; 0xac; 0x28]; [0x00; 0x00; 0x00; 0x00; 0x00; 0x00];
      [0x00; 0x00; 0x00; 0x00; 0x00; 0x00]; [0x00; 0x00; 0x00; 0x00; 0x00; 0x00]]);
  (0x33, [ (* U+0033 *)
      [0x00; 0x00; 0x00; 0x00; 0x00; 0x00]; [0x00; 0x00; 0x00; 0x00; 0x00; 0x00];
      [0x00; 0x5b; 0xb7; 0xb6; 0x5d; 0x00]; [0x15; 0xbc; 0x02; 0x01; 0xb9; 0x17];
      [0x02; 0x0e; 0x00; 0x00; 0x92; 0x2f]; [0x00; 0x00; 0x0a; 0x44; 0xb3; 0x02];
      [0x00; 0x00; 0x89; 0xd6; 0x4a; 0x00]; [0x00; 0x00; 0x00; 0x04; 0xad; 0x22];
      [0x00; 0x00; 0x00; 0x00; 0x5a; 0x61]; [0x3e; 0x88; 0x00; 0x00; 0x8d; 0x3f];
      [0x01; 0x95; 0xaa; 0xad; 0x91; 0x00]; [0x00; 0x00; 0x09; 0x09; 0x00; 0x00];
      [0x00; 0x00; 0x00; 0x00; 0x00; 0x00]; [0x00; 0x00; 0x00; 0x00; 0x00; 0x00]]);
  (0x34, [ (* U+0034 *)
      [0x00; 0x00; 0x00; 0x00; 0x00; 0x00]; [0x00; 0x00; 0x00; 0x00; 0x00; 0x00];
      [0x00; 0x00; 0x00; 0x8d; 0x5e; 0x00]; [0x00; 0x00; 0x30; 0xd7; 0x74; 0x00];
      [0x00; 0x00; 0xa9; 0x60; 0x74; 0x00]; [0x00; 0x42; 0x7b; 0x4c; 0x74; 0x00];
      [0x01; 0xb3; 0x0a; 0x4c; 0x74; 0x00]; [0x45; 0xc9; 0x88; 0xab; 0xbe; 0x1f];
      [0x0b; 0x24; 0x24; 0x65; 0x87; 0x08]; [0x00; 0x00; 0x00; 0x4c; 0x74; 0x00];
      [0x00; 0x00; 0x00; 0x4c; 0x74; 0x00]; [0x00; 0x00; 0x00; 0x00; 0x00; 0x00];
      [0x00; 0x00; 0x00; 0x00; 0x00; 0x00]; [0x00; 0x00; 0x00; 0x00; 0x00; 0x00]]);
  (0x35, [ (* U+0035 *)
      [0x00; 0x00; 0x00; 0x00; 0x00; 0x00]; [0x00; 0x00; 0x00; 0x00; 0x00; 0x00];
      [0x1a; 0xc2; 0xac; 0xac; 0xac; 0x00]; [0x20; 0xa0; 0x00; 0x00; 0x00; 0x00];
      [0x20; 0xa0; 0x00; 0x00; 0x00; 0x00]; [0x20; 0xc6; 0xa2; 0xa4; 0x31; 0x00];
      [0x1e; 0xdc; 0x16; 0x15; 0xc5; 0x08]; [0x00; 0x0f; 0x00; 0x00; 0x83; 0x3f];
      [0x00; 0x04; 0x00; 0x00; 0x76; 0x49]; [0x25; 0xa1; 0x00; 0x00; 0xb6; 0x19];
      [0x00; 0x82; 0xac; 0xb0; 0x71; 0x00]; [0x00; 0x00; 0x09; 0x06; 0x00; 0x00];
      [0x00; 0x00; 0x00; 0x00; 0x00; 0x00]; [0x00; 0x00; 0x00; 0x00; 0x00; 0x00]]);
  (0x36, [ (* U+0036 *)
      [0x00; 0x00; 0x00; 0x00; 0x00; 0x00]; [0x00; 0x00; 0x00; 0x00; 0x00; 0x00];
      [0x00; 0x00; 0x06; 0x83; 0x38; 0x00]; [0x00; 0x06; 0xb6; 0x51; 0x00; 0x00];
      [0x00; 0x7e; 0x56; 0x00; 0x00; 0x00]; [0x02; 0xba; 0x4a; 0x51; 0x07; 0x00];
      [0x26; 0xed; 0x68; 0x68; 0xb7; 0x00]; [0x40; 0x91; 0x00; 0x00; 0x91; 0x32];
      [0x4d; 0x72; 0x00; 0x00; 0x74; 0x4a]; [0x22; 0xad; 0x00; 0x00; 0xad; 0x1e];
      [0x00; 0x7d; 0xad; 0xad; 0x7c; 0x00]; [0x00; 0x00; 0x08; 0x08; 0x00; 0x00];
      [0x00; 0x00; 0x00; 0x00; 0x00; 0x00]; [0x00; 0x00; 0x00; 0x00; 0x00; 0x00]]);
  (0x37, [ (* U+0037 *)
      [0x00; 0x00; 0x00; 0x00; 0x00; 0x00]; [0x00; 0x00; 0x00; 0x00; 0x00; 0x00];
      [0x28; 0xac; 0xac; 0xac; 0xc1; 0x2f]; [0x00; 0x00; 0x00; 0x00; 0xc1; 0x0b];
      [0x00; 0x00; 0x00; 0x24; 0xa7; 0x00]; [0x00; 0x00; 0x00; 0x7c; 0x50; 0x00];
      [0x00; 0x00; 0x00; 0xc2; 0x07; 0x00]; [0x00; 0x00; 0x2c; 0x9c; 0x00; 0x00];
      [0x00; 0x00; 0x84; 0x44; 0x00; 0x00]; [0x00; 0x00; 0xc4; 0x03; 0x00; 0x00];
      [0x00; 0x34; 0x94; 0x00; 0x00; 0x00]; [0x00; 0x00; 0x00; 0x00; 0x00; 0x00];
      [0x00; 0x00; 0x00; 0x00; 0x00; 0x00]; [0x00; 0x00; 0x00; 0x00; 0x00; 0x00]]);
  (0x38, [ (* U+0038 *)
      [0x00; 0x00; 0x00; 0x00; 0x00; 0x00]; [0x00; 0x00; 0x00; 0x00; 0x00; 0x00];
      [0x00; 0x5b; 0xb7; 0xb6; 0x59; 0x00]; [0x0e; 0xbd; 0x02; 0x02; 0xbe; 0x0b];
      [0x15; 0xad; 0x00; 0x00; 0xb0; 0x13]; [0x00; 0xa3; 0x52; 0x55; 0xa1; 0x00];
      [0x00; 0x0e; 0xe0; 0xdf; 0x0c; 0x00]; [0x02; 0xb4; 0x43; 0x46; 0xb4; 0x02];
      [0x40; 0x86; 0x00; 0x00; 0x86; 0x3d]; [0x3d; 0x8d; 0x00; 0x00; 0x8e; 0x39];
      [0x01; 0x97; 0xaa; 0xa9; 0x95; 0x01]; [0x00; 0x00; 0x0a; 0x0a; 0x00; 0x00];
      [0x00; 0x00; 0x00; 0x00; 0x00; 0x00]; [0x00; 0x00; 0x00; 0x00; 0x00; 0x00]]);
  (0x39, [ (* U+0039 *)
      [0x00; 0x00; 0x00; 0x00; 0x00; 0x00]; [0x00; 0x00; 0x00; 0x00; 0x00; 0x00];
      [0x00; 0x59; 0xb6; 0xb6; 0x54; 0x00]; [0x17; 0xbb; 0x02; 0x04; 0xbf; 0x14];
      [0x4b; 0x73; 0x00; 0x00; 0x76; 0x47]; [0x45; 0x7b; 0x00; 0x00; 0x7f; 0x54];
      [0x0a; 0xc4; 0x1a; 0x20; 0xd4; 0x54]; [0x00; 0x2b; 0x9a; 0x92; 0x7e; 0x53];
      [0x00; 0x08; 0x00; 0x00; 0x7c; 0x42]; [0x24; 0xa4; 0x00; 0x01; 0xbb; 0x10];
      [0x00; 0x7b; 0xad; 0xb4; 0x64; 0x00]; [0x00; 0x00; 0x09; 0x06; 0x00; 0x00];
      [0x00; 0x00; 0x00; 0x00; 0x00; 0x00]; [0x00; 0x00; 0x00; 0x00; 0x00; 0x00]]);
  (0x3a, [ (* U+003A *)
      [0x00; 0x00; 0x00; 0x00; 0x00; 0x00]; [0x00; 0x00; 0x00; 0x00; 0x00; 0x00];
      [0x00; 0x00; 0x00; 0x00; 0x00; 0x00]; [0x00; 0x00; 0x00; 0x00; 0x00; 0x00];
      [0x00; 0x00; 0x3f; 0x3f; 0x00; 0x00]; [0x00; 0x00; 0xb6; 0xb5; 0x00; 0x00];
      [0x00; 0x00; 0x07; 0x07; 0x00; 0x00]; [0x00; 0x00; 0x00; 0x00; 0x00; 0x00];
      [0x00; 0x00; 0x00; 0x00; 0x00; 0x00]; [0x00; 0x00; 0x42; 0x42; 0x00; 0x00];
      [0x00; 0x00; 0xb5; 0xb4; 0x00; 0x00]; [0x00; 0x00; 0x06; 0x05; 0x00; 0x00];
      [0x00; 0x00; 0x00; 0x00; 0x00; 0x00]; [0x00; 0x00; 0x00; 0x00; 0x00; 0x00]]);
  (0x3b, [ (* U+003B *)
      [0x00; 0x00; 0x00; 0x00; 0x00; 0x00]; [0x00; 0x00; 0x00; 0x00; 0x00; 0x00];
      [0x00; 0x00; 0x00; 0x00; 0x00; 0x00]; [0x00; 0x00; 0x00; 0x00; 0x00; 0x00];
      [0x00; 0x00; 0x3f; 0x3f; 0x00; 0x00]; [0x00; 0x00; 0xb6; 0xb5; 0x00; 0x00];
      [0x00; 0x00; 0x07; 0x07; 0x00; 0x00]; [0x00; 0x00; 0x00; 0x00; 0x00; 0x00];
      [0x00; 0x00; 0x00; 0x00; 0x00; 0x00]; [0x00; 0x00; 0x42; 0x42; 0x00; 0x00];
      [0x00; 0x00; 0xb5; 0xbf; 0x00; 0x00]; [0x00; 0x00; 0x2a; 0x9b; 0x00; 0x00];
      [0x00; 0x00; 0x87; 0x40; 0x00; 0x00]; [0x00; 0x00; 0x3a; 0x00; 0x00; 0x00]]);
  (0x3c, [ (* U+003C *)
      [0x00; 0x00; 0x00; 0x00; 0x00; 0x00]; [0x00; 0x00; 0x00; 0x00; 0x00; 0x00];
      [0x00; 0x00; 0x00; 0x00; 0x00; 0x00]; [0x00; 0x00; 0x00; 0x02; 0x7c; 0x32];
      [0x00; 0x00; 0x1c; 0xb1; 0x5c; 0x00]; [0x00; 0x52; 0xb2; 0x20; 0x00; 0x00];
      [0x34; 0xb0; 0x03; 0x00; 0x00; 0x00]; [0x06; 0x8a; 0x8c; 0x06; 0x00; 0x00];
      [0x00; 0x00; 0x49; 0xb9; 0x29; 0x00]; [0x00; 0x00; 0x00; 0x17; 0xaf; 0x31];
      [0x00; 0x00; 0x00; 0x00; 0x01; 0x01]; [0x00; 0x00; 0x00; 0x00; 0x00; 0x00];
      [0x00; 0x00; 0x00; 0x00; 0x00; 0x00]; [0x00; 0x00; 0x00; 0x00; 0x00; 0x00]]);
  (0x3d, [ (* U+003D *)
      [0x00; 0x00; 0x00; 0x00; 0x00; 0x00]; [0x00; 0x00; 0x00; 0x00; 0x00; 0x00];
      [0x00; 0x00; 0x00; 0x00; 0x00; 0x00]; [0x00; 0x00; 0x00; 0x00; 0x00; 0x00];
      [0x00; 0x00; 0x00; 0x00; 0x00; 0x00]; [0x28; 0xac; 0xac; 0xac; 0xac; 0x28];
      [0x00; 0x00; 0x00; 0x00; 0x00; 0x00]; [0x1b; 0x74; 0x74; 0x74; 0x74; 0x1b];
      [0x0d; 0x38; 0x38; 0x38; 0x38; 0x0d]; [0x00; 0x00; 0x00; 0x00; 0x00; 0x00];
      [0x00; 0x00; 0x00; 0x00; 0x00; 0x00]; [0x00; 0x00; 0x00; 0x00; 0x00; 0x00];
      [0x00; 0x00; 0x00; 0x00; 0x00; 0x00]; [0x00; 0x00; 0x00; 0x00; 0x00; 0x00]]);
  (0x3e, [ (* U+003E *)
      [0x00; 0x00; 0x00; 0x00; 0x00; 0x00]; [0x00; 0x00; 0x00; 0x00; 0x00; 0x00];
      [0x00; 0x00; 0x00; 0x00; 0x00; 0x00]; [0x33; 0x7a; 0x01; 0x00; 0x00; 0x00];
      [0x00; 0x5e; 0xaf; 0x1a; 0x00; 0x00]; [0x00; 0x00; 0x23; 0xb4; 0x4f; 0x00];
      [0x00; 0x00; 0x00; 0x04; 0xb2; 0x34]; [0x00; 0x00; 0x07; 0x8e; 0x8a; 0x06];
      [0x00; 0x2c; 0xba; 0x46; 0x00; 0x00]; [0x32; 0xae; 0x17; 0x00; 0x00; 0x00];
      [0x01; 0x01; 0x00; 0x00; 0x00; 0x00]; [0x00; 0x00; 0x00; 0x00; 0x00; 0x00];
      [0x00; 0x00; 0x00; 0x00; 0x00; 0x00]; [0x00; 0x00; 0x00; 0x00; 0x00; 0x00]]);
  (0x3f, [ (* U+003F *)
      [0x00; 0x00; 0x00; 0x00; 0x00; 0x00]; [0x00; 0x00; 0x00; 0x00; 0x00; 0x00];
      [0x00; 0x78; 0xb2; 0xb2; 0x5e; 0x00]; [0x31; 0x9f; 0x00; 0x01; 0xb5; 0x19];
      [0x04; 0x0a; 0x00; 0x00; 0x97; 0x2e]; [0x00; 0x00; 0x00; 0x21; 0xc5; 0x01];
      [0x00; 0x00; 0x06; 0xc4; 0x27; 0x00]; [0x00; 0x00; 0x47; 0x81; 0x00; 0x00];
      [0x00; 0x00; 0x20; 0x21; 0x00; 0x00]; [0x00; 0x00; 0x1f; 0x1f; 0x00; 0x00];
      [0x00; 0x00; 0xa1; 0xa0; 0x00; 0x00]; [0x00; 0x00; 0x05; 0x05; 0x00; 0x00];
      [0x00; 0x00; 0x00; 0x00; 0x00; 0x00]; [0x00; 0x00; 0x00; 0x00; 0x00; 0x00]]);
  (0x40, [ (* U+0040 *)
      [0x00; 0x50; 0xb2; 0xb2; 0x4e; 0x00]; [0x11; 0xc2; 0x04; 0x05; 0xc1; 0x0f];
      [0x38; 0x87; 0x00; 0x00; 0x88; 0x36]; [0x3c; 0x84; 0x09; 0x90; 0xd7; 0x3c];
      [0x3c; 0x84; 0x5e; 0x6e; 0x84; 0x3c]; [0x3c; 0x84; 0x70; 0x50; 0x84; 0x3c];
      [0x3c; 0x84; 0x70; 0x50; 0x84; 0x3c]; [0x3c; 0x84; 0x70; 0x50; 0x84; 0x3c];
      [0x3c; 0x84; 0x70; 0x50; 0x84; 0x3b]; [0x3c; 0x84; 0x56; 0x85; 0xae; 0x21];
      [0x3a; 0x85; 0x03; 0x71; 0x5c; 0x00]; [0x1b; 0xaf; 0x00; 0x00; 0x00; 0x00];
      [0x00; 0x81; 0xab; 0x90; 0x80; 0x00]; [0x00; 0x00; 0x0b; 0x1c; 0x18; 0x00]]);
  (0x41, [ (* U+0041 *)
      [0x00; 0x00; 0x00; 0x00; 0x00; 0x00]; [0x00; 0x00; 0x00; 0x00; 0x00; 0x00];
      [0x00; 0x00; 0x69; 0x68; 0x00; 0x00]; [0x00; 0x00; 0xb6; 0xb1; 0x00; 0x00];
      [0x00; 0x20; 0x9d; 0xa0; 0x19; 0x00]; [0x00; 0x6a; 0x53; 0x55; 0x5e; 0x00];
      [0x00; 0xab; 0x14; 0x17; 0xa4; 0x00]; [0x00; 0xcc; 0x30; 0x30; 0xc5; 0x00];
      [0x15; 0xcf; 0x7c; 0x7c; 0xcf; 0x10]; [0x32; 0x8b; 0x00; 0x00; 0x8f; 0x2c];
      [0x3c; 0x84; 0x00; 0x00; 0x84; 0x3b]; [0x00; 0x00; 0x00; 0x00; 0x00; 0x00];
      [0x00; 0x00; 0x00; 0x00; 0x00; 0x00]; [0x00; 0x00; 0x00; 0x00; 0x00; 0x00]]);
  (0x42, [ (* U+0042 *)
      [0x00; 0x00; 0x00; 0x00; 0x00; 0x00]; [0x00; 0x00; 0x00; 0x00; 0x00; 0x00];
      [0x30; 0xbe; 0xac; 0xa8; 0x25; 0x00]; [0x3c; 0x84; 0x00; 0x20; 0xb5; 0x00];
      [0x3c; 0x84; 0x00; 0x00; 0xbb; 0x00]; [0x3c; 0x84; 0x00; 0x2c; 0xa8; 0x00];
      [0x3c; 0xd7; 0xad; 0xdb; 0x49; 0x00]; [0x3c; 0x84; 0x00; 0x04; 0xb3; 0x1b];
      [0x3c; 0x84; 0x00; 0x00; 0x74; 0x4a]; [0x3c; 0x84; 0x00; 0x02; 0xb3; 0x22];
      [0x3c; 0xd7; 0xac; 0xba; 0x64; 0x00]; [0x00; 0x00; 0x00; 0x00; 0x00; 0x00];
      [0x00; 0x00; 0x00; 0x00; 0x00; 0x00]; [0x00; 0x00; 0x00; 0x00; 0x00; 0x00]]);
  (0x43, [ (* U+0043 *)
      [0x00; 0x00; 0x00; 0x00; 0x00; 0x00]; [0x00; 0x00; 0x00; 0x00; 0x00; 0x00];
      [0x00; 0x64; 0xb3; 0xb3; 0x61; 0x00]; [0x22; 0xb1; 0x01; 0x01; 0xb2; 0x23];
      [0x50; 0x6f; 0x00; 0x00; 0x0f; 0x05]; [0x54; 0x6c; 0x00; 0x00; 0x00; 0x00];
      [0x54; 0x6c; 0x00; 0x00; 0x00; 0x00]; [0x54; 0x6c; 0x00; 0x00; 0x00; 0x00];
      [0x52; 0x6d; 0x00; 0x00; 0x00; 0x00]; [0x30; 0x9e; 0x00; 0x00; 0x98; 0x28];
      [0x00; 0x8f; 0xaa; 0xab; 0x8b; 0x00]; [0x00; 0x00; 0x09; 0x09; 0x00; 0x00];
      [0x00; 0x00; 0x00; 0x00; 0x00; 0x00]; [0x00; 0x00; 0x00; 0x00; 0x00; 0x00]]);
  (0x44, [ (* U+0044 *)
      [0x00; 0x00; 0x00; 0x00; 0x00; 0x00]; [0x00; 0x00; 0x00; 0x00; 0x00; 0x00];
      [0x30; 0xbe; 0xac; 0xa4; 0x26; 0x00]; [0x3c; 0x84; 0x00; 0x1e; 0xc6; 0x04];
      [0x3c; 0x84; 0x00; 0x00; 0x8c; 0x39]; [0x3c; 0x84; 0x00; 0x00; 0x6e; 0x51];
      [0x3c; 0x84; 0x00; 0x00; 0x6c; 0x54]; [0x3c; 0x84; 0x00; 0x00; 0x6c; 0x53];
      [0x3c; 0x84; 0x00; 0x00; 0x83; 0x40]; [0x3c; 0x84; 0x00; 0x0a; 0xc7; 0x09];
      [0x3c; 0xd7; 0xac; 0xb7; 0x41; 0x00]; [0x00; 0x00; 0x00; 0x00; 0x00; 0x00];
      [0x00; 0x00; 0x00; 0x00; 0x00; 0x00]; [0x00; 0x00; 0x00; 0x00; 0x00; 0x00]]);
  (0x45, [ (* U+0045 *)
      [0x00; 0x00; 0x00; 0x00; 0x00; 0x00]; [0x00; 0x00; 0x00; 0x00; 0x00; 0x00];
      [0x00; 0xab; 0xac; 0xac; 0xac; 0x28]; [0x00; 0xbc; 0x00; 0x00; 0x00; 0x00];
      [0x00; 0xbc; 0x00; 0x00; 0x00; 0x00]; [0x00; 0xbe; 0x18; 0x18; 0x0d; 0x00];
      [0x00; 0xcc; 0x94; 0x94; 0x53; 0x00]; [0x00; 0xbc; 0x00; 0x00; 0x00; 0x00];
      [0x00; 0xbc; 0x00; 0x00; 0x00; 0x00]; [0x00; 0xbc; 0x00; 0x00; 0x00; 0x00];
      [0x00; 0xce; 0xac; 0xac; 0xac; 0x28]; [0x00; 0x00; 0x00; 0x00; 0x00; 0x00];
      [0x00; 0x00; 0x00; 0x00; 0x00; 0x00]; [0x00; 0x00; 0x00; 0x00; 0x00; 0x00]]);
  (0x46, [ (* U+0046 *)
      [0x00; 0x00; 0x00; 0x00; 0x00; 0x00]; [0x00; 0x00; 0x00; 0x00; 0x00; 0x00];
      [0x00; 0xab; 0xac; 0xac; 0xac; 0x28]; [0x00; 0xbc; 0x00; 0x00; 0x00; 0x00];
      [0x00; 0xbc; 0x00; 0x00; 0x00; 0x00]; [0x00; 0xbe; 0x18; 0x18; 0x0d; 0x00];
      [0x00; 0xcc; 0x94; 0x94; 0x53; 0x00]; [0x00; 0xbc; 0x00; 0x00; 0x00; 0x00];
      [0x00; 0xbc; 0x00; 0x00; 0x00; 0x00]; [0x00; 0xbc; 0x00; 0x00; 0x00; 0x00];
      [0x00; 0xbc; 0x00; 0x00; 0x00; 0x00]; [0x00; 0x00; 0x00; 0x00; 0x00; 0x00];
      [0x00; 0x00; 0x00; 0x00; 0x00; 0x00]; [0x00; 0x00; 0x00; 0x00; 0x00; 0x00]]);
  (0x47, [ (* U+0047 *)
      [0x00; 0x00; 0x00; 0x00; 0x00; 0x00]; [0x00; 0x00; 0x00; 0x00; 0x00; 0x00];
      [0x00; 0x64; 0xb3; 0xb3; 0x61; 0x00]; [0x22; 0xb1; 0x01; 0x01; 0xb2; 0x23];
      [0x50; 0x6f; 0x00; 0x00; 0x0f; 0x05]; [0x54; 0x6c; 0x00; 0x00; 0x00; 0x00];
      [0x54; 0x6c; 0x00; 0xac; 0xb6; 0x2d]; [0x54; 0x6c; 0x00; 0x00; 0x84; 0x3c];
      [0x52; 0x6d; 0x00; 0x00; 0x86; 0x39]; [0x31; 0x9e; 0x00; 0x00; 0xb0; 0x17];
      [0x00; 0x8d; 0xa9; 0xaf; 0x7c; 0x00]; [0x00; 0x00; 0x09; 0x07; 0x00; 0x00];
      [0x00; 0x00; 0x00; 0x00; 0x00; 0x00]; [0x00; 0x00; 0x00; 0x00; 0x00; 0x00]]);
  (0x48, [ (* U+0048 *)
      [0x00; 0x00; 0x00; 0x00; 0x00; 0x00]; [0x00; 0x00; 0x00; 0x00; 0x00; 0x00];
      [0x30; 0x6b; 0x00; 0x00; 0x6b; 0x30]; [0x3c; 0x84; 0x00; 0x00; 0x84; 0x3c];
      [0x3c; 0x84; 0x00; 0x00; 0x84; 0x3c]; [0x3c; 0x84; 0x00; 0x00; 0x84; 0x3c];
      [0x3c; 0xd7; 0xac; 0xac; 0xd7; 0x3c]; [0x3c; 0x84; 0x00; 0x00; 0x84; 0x3c];
      [0x3c; 0x84; 0x00; 0x00; 0x84; 0x3c]; [0x3c; 0x84; 0x00; 0x00; 0x84; 0x3c];
      [0x3c; 0x84; 0x00; 0x00; 0x84; 0x3c]; [0x00; 0x00; 0x00; 0x00; 0x00; 0x00];
      [0x00; 0x00; 0x00; 0x00; 0x00; 0x00]; [0x00; 0x00; 0x00; 0x00; 0x00; 0x00]]);
  (0x49, [ (* U+0049 *)
      [0x00; 0x00; 0x00; 0x00; 0x00; 0x00]; [0x00; 0x00; 0x00; 0x00; 0x00; 0x00];
      [0x00; 0x76; 0xb9; 0xb9; 0x76; 0x00]; [0x00; 0x00; 0x60; 0x60; 0x00; 0x00];
      [0x00; 0x00; 0x60; 0x60; 0x00; 0x00]; [0x00; 0x00; 0x60; 0x60; 0x00; 0x00];
      [0x00; 0x00; 0x60; 0x60; 0x00; 0x00]; [0x00; 0x00; 0x60; 0x60; 0x00; 0x00];
      [0x00; 0x00; 0x60; 0x60; 0x00; 0x00]; [0x00; 0x00; 0x60; 0x60; 0x00; 0x00];
      [0x00; 0x76; 0xcb; 0xcb; 0x76; 0x00]; [0x00; 0x00; 0x00; 0x00; 0x00; 0x00];
      [0x00; 0x00; 0x00; 0x00; 0x00; 0x00]; [0x00; 0x00; 0x00; 0x00; 0x00; 0x00]]);
  (0x4a, [ (* U+004A *)
      [0x00; 0x00; 0x00; 0x00; 0x00; 0x00]; [0x00; 0x00; 0x00; 0x00; 0x00; 0x00];
      [0x00; 0x00; 0x53; 0xac; 0xc4; 0x00]; [0x00; 0x00; 0x00; 0x00; 0xc0; 0x00];
      [0x00; 0x00; 0x00; 0x00; 0xc0; 0x00]; [0x00; 0x00; 0x00; 0x00; 0xc0; 0x00];
      [0x00; 0x00; 0x00; 0x00; 0xc0; 0x00]; [0x00; 0x00; 0x00; 0x00; 0xc0; 0x00];
      [0x00; 0x00; 0x00; 0x00; 0xc0; 0x00]; [0x58; 0x66; 0x00; 0x09; 0xc0; 0x00];
      [0x08; 0xad; 0xa1; 0xbe; 0x47; 0x00]; [0x00; 0x00; 0x0d; 0x02; 0x00; 0x00];
      [0x00; 0x00; 0x00; 0x00; 0x00; 0x00]; [0x00; 0x00; 0x00; 0x00; 0x00; 0x00]]);
  (0x4b, [ (* U+004B *)
      [0x00; 0x00; 0x00; 0x00; 0x00; 0x00]; [0x00; 0x00; 0x00; 0x00; 0x00; 0x00];
      [0x30; 0x6b; 0x00; 0x00; 0x8a; 0x1b]; [0x3c; 0x84; 0x00; 0x1e; 0xb3; 0x00];
      [0x3c; 0x84; 0x01; 0xb3; 0x26; 0x00]; [0x3c; 0x84; 0x88; 0x87; 0x00; 0x00];
      [0x3c; 0xd8; 0x93; 0xbe; 0x00; 0x00]; [0x3c; 0xae; 0x00; 0x87; 0x40; 0x00];
      [0x3c; 0x84; 0x00; 0x1f; 0xa5; 0x00]; [0x3c; 0x84; 0x00; 0x00; 0xb7; 0x0a];
      [0x3c; 0x84; 0x00; 0x00; 0x7e; 0x40]; [0x00; 0x00; 0x00; 0x00; 0x00; 0x00];
      [0x00; 0x00; 0x00; 0x00; 0x00; 0x00]; [0x00; 0x00; 0x00; 0x00; 0x00; 0x00]]);
  (0x4c, [ (* U+004C *)
      [0x00; 0x00; 0x00; 0x00; 0x00; 0x00]; [0x00; 0x00; 0x00; 0x00; 0x00; 0x00];
      [0x00; 0x98; 0x00; 0x00; 0x00; 0x00]; [0x00; 0xbc; 0x00; 0x00; 0x00; 0x00];
      [0x00; 0xbc; 0x00; 0x00; 0x00; 0x00]; [0x00; 0xbc; 0x00; 0x00; 0x00; 0x00];
      [0x00; 0xbc; 0x00; 0x00; 0x00; 0x00]; [0x00; 0xbc; 0x00; 0x00; 0x00; 0x00];
      [0x00; 0xbc; 0x00; 0x00; 0x00; 0x00]; [0x00; 0xbc; 0x00; 0x00; 0x00; 0x00];
      [0x00; 0xce; 0xac; 0xac; 0xac; 0x38]; [0x00; 0x00; 0x00; 0x00; 0x00; 0x00];
      [0x00; 0x00; 0x00; 0x00; 0x00; 0x00]; [0x00; 0x00; 0x00; 0x00; 0x00; 0x00]]);
  (0x4d, [ (* U+004D *)
      [0x00; 0x00; 0x00; 0x00; 0x00; 0x00]; [0x00; 0x00; 0x00; 0x00; 0x00; 0x00];
      [0x30; 0xb4; 0x00; 0x00; 0xb6; 0x30]; [0x3c; 0xfc; 0x18; 0x1c; 0xfc; 0x3c];
      [0x3c; 0xcc; 0x5a; 0x5e; 0xcc; 0x3c]; [0x3c; 0x8d; 0x9a; 0x9e; 0x8e; 0x3c];
      [0x3c; 0x7b; 0xb0; 0xae; 0x7d; 0x3c]; [0x3c; 0x7e; 0x90; 0x8c; 0x82; 0x3c];
      [0x3c; 0x80; 0x22; 0x21; 0x84; 0x3c]; [0x3c; 0x83; 0x00; 0x00; 0x84; 0x3c];
      [0x3c; 0x84; 0x00; 0x00; 0x84; 0x3c]; [0x00; 0x00; 0x00; 0x00; 0x00; 0x00];
      [0x00; 0x00; 0x00; 0x00; 0x00; 0x00]; [0x00; 0x00; 0x00; 0x00; 0x00; 0x00]]);
  (0x4e, [ (* U+004E *)
      [0x00; 0x00; 0x00; 0x00; 0x00; 0x00]; [0x00; 0x00; 0x00; 0x00; 0x00; 0x00];
      [0x30; 0xc6; 0x04; 0x00; 0x6b; 0x30]; [0x3c; 0xee; 0x4a; 0x00; 0x84; 0x3c];
      [0x3c; 0x9e; 0xa1; 0x00; 0x84; 0x3c]; [0x3c; 0x84; 0xb3; 0x09; 0x84; 0x3c];
      [0x3c; 0x84; 0x68; 0x54; 0x84; 0x3c]; [0x3c; 0x84; 0x14; 0xa7; 0x84; 0x3c];
      [0x3c; 0x84; 0x00; 0xae; 0x91; 0x3c]; [0x3c; 0x84; 0x00; 0x60; 0xe0; 0x3c];
      [0x3c; 0x84; 0x00; 0x0e; 0xf7; 0x3c]; [0x00; 0x00; 0x00; 0x00; 0x00; 0x00];
      [0x00; 0x00; 0x00; 0x00; 0x00; 0x00]; [0x00; 0x00; 0x00; 0x00; 0x00; 0x00]]);
  (0x4f, [ (* U+004F *)
      [0x00; 0x00; 0x00; 0x00; 0x00; 0x00]; [0x00; 0x00; 0x00; 0x00; 0x00; 0x00];
      [0x00; 0x63; 0xb3; 0xb3; 0x61; 0x00]; [0x23; 0xb3; 0x01; 0x01; 0xb3; 0x21];
      [0x50; 0x6f; 0x00; 0x00; 0x70; 0x4e]; [0x54; 0x6c; 0x00; 0x00; 0x6c; 0x54];
      [0x54; 0x6c; 0x00; 0x00; 0x6c; 0x54]; [0x54; 0x6c; 0x00; 0x00; 0x6c; 0x54];
      [0x52; 0x6d; 0x00; 0x00; 0x6e; 0x51]; [0x31; 0x9e; 0x00; 0x00; 0x9f; 0x2d];
      [0x00; 0x8d; 0xaa; 0xaa; 0x8c; 0x00]; [0x00; 0x00; 0x09; 0x09; 0x00; 0x00];
      [0x00; 0x00; 0x00; 0x00; 0x00; 0x00]; [0x00; 0x00; 0x00; 0x00; 0x00; 0x00]]);
  (0x50, [ (* U+0050 *)
      [0x00; 0x00; 0x00; 0x00; 0x00; 0x00]; [0x00; 0x00; 0x00; 0x00; 0x00; 0x00];
      [0x09; 0xc5; 0xac; 0xaf; 0x48; 0x00]; [0x0c; 0xb4; 0x00; 0x08; 0xbd; 0x17];
      [0x0c; 0xb4; 0x00; 0x00; 0x74; 0x49]; [0x0c; 0xb4; 0x00; 0x00; 0x98; 0x2f];
      [0x0c; 0xd8; 0x7c; 0x9b; 0x9a; 0x00]; [0x0c; 0xc2; 0x2f; 0x1a; 0x00; 0x00];
      [0x0c; 0xb4; 0x00; 0x00; 0x00; 0x00]; [0x0c; 0xb4; 0x00; 0x00; 0x00; 0x00];
      [0x0c; 0xb4; 0x00; 0x00; 0x00; 0x00]; [0x00; 0x00; 0x00; 0x00; 0x00; 0x00];
      [0x00; 0x00; 0x00; 0x00; 0x00; 0x00]; [0x00; 0x00; 0x00; 0x00; 0x00; 0x00]]);
  (0x51, [ (* U+0051 *)
      [0x00; 0x00; 0x00; 0x00; 0x00; 0x00]; [0x00; 0x00; 0x00; 0x00; 0x00; 0x00];
      [0x00; 0x63; 0xb3; 0xb3; 0x61; 0x00]; [0x23; 0xb3; 0x01; 0x01; 0xb3; 0x21];
      [0x50; 0x6f; 0x00; 0x00; 0x70; 0x4e]; [0x54; 0x6c; 0x00; 0x00; 0x6c; 0x54];
      [0x54; 0x6c; 0x00; 0x00; 0x6c; 0x54]; [0x54; 0x6c; 0x00; 0x00; 0x6c; 0x54];
      [0x52; 0x6d; 0x00; 0x00; 0x6e; 0x51]; [0x31; 0x9e; 0x00; 0x00; 0x9f; 0x2d];
      [0x00; 0x8e; 0xab; 0xac; 0x8d; 0x00]; [0x00; 0x00; 0x49; 0x8c; 0x00; 0x00];
      [0x00; 0x00; 0x01; 0x89; 0xad; 0x08]; [0x00; 0x00; 0x00; 0x00; 0x00; 0x00]]);
  (0x52, [ (* U+0052 *)
      [0x00; 0x00; 0x00; 0x00; 0x00; 0x00]; [0x00; 0x00; 0x00; 0x00; 0x00; 0x00];
      [0x30; 0xbe; 0xac; 0xaf; 0x48; 0x00]; [0x3c; 0x84; 0x00; 0x08; 0xbd; 0x17];
      [0x3c; 0x84; 0x00; 0x00; 0x74; 0x49]; [0x3c; 0x84; 0x00; 0x00; 0x98; 0x2f];
      [0x3c; 0xc0; 0x7c; 0x9c; 0x9a; 0x00]; [0x3c; 0x9b; 0x36; 0xc6; 0x0b; 0x00];
      [0x3c; 0x84; 0x00; 0x4f; 0x81; 0x00]; [0x3c; 0x84; 0x00; 0x00; 0xbc; 0x09];
      [0x3c; 0x84; 0x00; 0x00; 0x84; 0x3c]; [0x00; 0x00; 0x00; 0x00; 0x00; 0x00];
      [0x00; 0x00; 0x00; 0x00; 0x00; 0x00]; [0x00; 0x00; 0x00; 0x00; 0x00; 0x00]]);
  (0x53, [ (* U+0053 *)
      [0x00; 0x00; 0x00; 0x00; 0x00; 0x00]; [0x00; 0x00; 0x00; 0x00; 0x00; 0x00];
      [0x00; 0x5e; 0xb3; 0xb2; 0x74; 0x00]; [0x1a; 0xb6; 0x01; 0x00; 0xa1; 0x31];
      [0x31; 0x91; 0x00; 0x00; 0x0a; 0x04]; [0x03; 0xc1; 0x36; 0x00; 0x00; 0x00];
      [0x00; 0x17; 0xb0; 0x8b; 0x06; 0x00]; [0x00; 0x00; 0x00; 0x5e; 0xac; 0x00];
      [0x00; 0x00; 0x00; 0x00; 0x9e; 0x27]; [0x33; 0x81; 0x00; 0x00; 0xa9; 0x21];
      [0x01; 0x9e; 0xa9; 0xaf; 0x87; 0x00]; [0x00; 0x00; 0x0b; 0x07; 0x00; 0x00];
      [0x00; 0x00; 0x00; 0x00; 0x00; 0x00]; [0x00; 0x00; 0x00; 0x00; 0x00; 0x00]]);
  (0x54, [ (* U+0054 *)
      [0x00; 0x00; 0x00; 0x00; 0x00; 0x00]; [0x00; 0x00; 0x00; 0x00; 0x00; 0x00];
      [0x28; 0xac; 0xb9; 0xb9; 0xac; 0x28]; [0x00; 0x00; 0x60; 0x60; 0x00; 0x00];
      [0x00; 0x00; 0x60; 0x60; 0x00; 0x00]; [0x00; 0x00; 0x60; 0x60; 0x00; 0x00];
      [0x00; 0x00; 0x60; 0x60; 0x00; 0x00]; [0x00; 0x00; 0x60; 0x60; 0x00; 0x00];
      [0x00; 0x00; 0x60; 0x60; 0x00; 0x00]; [0x00; 0x00; 0x60; 0x60; 0x00; 0x00];
      [0x00; 0x00; 0x60; 0x60; 0x00; 0x00]; [0x00; 0x00; 0x00; 0x00; 0x00; 0x00];
      [0x00; 0x00; 0x00; 0x00; 0x00; 0x00]; [0x00; 0x00; 0x00; 0x00; 0x00; 0x00]]);
  (0x55, [ (* U+0055 *)
      [0x00; 0x00; 0x00; 0x00; 0x00; 0x00]; [0x00; 0x00; 0x00; 0x00; 0x00; 0x00];
      [0x30; 0x6b; 0x00; 0x00; 0x6b; 0x30]; [0x3c; 0x84; 0x00; 0x00; 0x84; 0x3c];
      [0x3c; 0x84; 0x00; 0x00; 0x84; 0x3c]; [0x3c; 0x84; 0x00; 0x00; 0x84; 0x3c];
      [0x3c; 0x84; 0x00; 0x00; 0x84; 0x3c]; [0x3c; 0x84; 0x00; 0x00; 0x84; 0x3c];
      [0x3a; 0x85; 0x00; 0x00; 0x86; 0x39]; [0x1b; 0xb1; 0x00; 0x00; 0xb0; 0x17];
      [0x00; 0x7e; 0xae; 0xae; 0x7c; 0x00]; [0x00; 0x00; 0x08; 0x08; 0x00; 0x00];
      [0x00; 0x00; 0x00; 0x00; 0x00; 0x00]; [0x00; 0x00; 0x00; 0x00; 0x00; 0x00]]);
  (0x56, [ (* U+0056 *)
      [0x00; 0x00; 0x00; 0x00; 0x00; 0x00]; [0x00; 0x00; 0x00; 0x00; 0x00; 0x00];
      [0x30; 0x6b; 0x00; 0x00; 0x6b; 0x30]; [0x34; 0x89; 0x00; 0x00; 0x8d; 0x30];
      [0x1b; 0xa2; 0x00; 0x00; 0xa8; 0x15]; [0x00; 0xbc; 0x00; 0x00; 0xbb; 0x00];
      [0x00; 0xb1; 0x0c; 0x12; 0xad; 0x00]; [0x00; 0x72; 0x48; 0x4e; 0x6a; 0x00];
      [0x00; 0x2b; 0x8e; 0x93; 0x23; 0x00]; [0x00; 0x00; 0xb6; 0xb0; 0x00; 0x00];
      [0x00; 0x00; 0x8a; 0x86; 0x00; 0x00]; [0x00; 0x00; 0x00; 0x00; 0x00; 0x00];
      [0x00; 0x00; 0x00; 0x00; 0x00; 0x00]; [0x00; 0x00; 0x00; 0x00; 0x00; 0x00]]);
  (0x57, [ (* U+0057 *)
      [0x00; 0x00; 0x00; 0x00; 0x00; 0x00]; [0x00; 0x00; 0x00; 0x00; 0x00; 0x00];
      [0x30; 0x6b; 0x00; 0x00; 0x6b; 0x30]; [0x3c; 0x84; 0x00; 0x00; 0x84; 0x3c];
      [0x3a; 0x84; 0x00; 0x00; 0x86; 0x38]; [0x2f; 0x8a; 0x17; 0x17; 0x90; 0x29];
      [0x16; 0x9b; 0x72; 0x6e; 0xa2; 0x0e]; [0x00; 0xa3; 0x93; 0x90; 0xa8; 0x00];
      [0x00; 0x97; 0x94; 0x94; 0x9b; 0x00]; [0x00; 0x94; 0x84; 0x87; 0x8e; 0x00];
      [0x00; 0x6e; 0x54; 0x56; 0x6a; 0x00]; [0x00; 0x00; 0x00; 0x00; 0x00; 0x00];
      [0x00; 0x00; 0x00; 0x00; 0x00; 0x00]; [0x00; 0x00; 0x00; 0x00; 0x00; 0x00]]);
  (0x58, [ (* U+0058 *)
      [0x00; 0x00; 0x00; 0x00; 0x00; 0x00]; [0x00; 0x00; 0x00; 0x00; 0x00; 0x00];
      [0x2e; 0x6e; 0x00; 0x00; 0x6f; 0x2d]; [0x19; 0xae; 0x00; 0x00; 0xaf; 0x17];
      [0x00; 0xb4; 0x22; 0x23; 0xb3; 0x00]; [0x00; 0x2a; 0xb1; 0xb2; 0x29; 0x00];
      [0x00; 0x00; 0x9c; 0x9a; 0x00; 0x00]; [0x00; 0x18; 0xc1; 0xc1; 0x16; 0x00];
      [0x00; 0xa1; 0x36; 0x38; 0xa0; 0x00]; [0x11; 0xb5; 0x00; 0x00; 0xb7; 0x10];
      [0x36; 0x89; 0x00; 0x00; 0x8a; 0x35]; [0x00; 0x00; 0x00; 0x00; 0x00; 0x00];
      [0x00; 0x00; 0x00; 0x00; 0x00; 0x00]; [0x00; 0x00; 0x00; 0x00; 0x00; 0x00]]);
  (0x59, [ (* U+0059 *)
      [0x00; 0x00; 0x00; 0x00; 0x00; 0x00]; [0x00; 0x00; 0x00; 0x00; 0x00; 0x00];
      [0x2f; 0x6c; 0x00; 0x00; 0x6d; 0x2e]; [0x24; 0x9e; 0x00; 0x00; 0xa0; 0x1e];
      [0x02; 0xc2; 0x02; 0x03; 0xc2; 0x01]; [0x00; 0x76; 0x57; 0x59; 0x74; 0x00];
      [0x00; 0x0a; 0xc2; 0xc1; 0x09; 0x00]; [0x00; 0x00; 0x74; 0x73; 0x00; 0x00];
      [0x00; 0x00; 0x60; 0x60; 0x00; 0x00]; [0x00; 0x00; 0x60; 0x60; 0x00; 0x00];
      [0x00; 0x00; 0x60; 0x60; 0x00; 0x00]; [0x00; 0x00; 0x00; 0x00; 0x00; 0x00];
      [0x00; 0x00; 0x00; 0x00; 0x00; 0x00]; [0x00; 0x00; 0x00; 0x00; 0x00; 0x00]]);
  (0x5a, [ (* U+005A *)
      [0x00; 0x00; 0x00; 0x00; 0x00; 0x00]; [0x00; 0x00; 0x00; 0x00; 0x00; 0x00];
      [0x28; 0xac; 0xac; 0xac; 0xc3; 0x2f]; [0x00; 0x00; 0x00; 0x09; 0xcb; 0x06];
      [0x00; 0x00; 0x00; 0x6e; 0x6e; 0x00]; [0x00; 0x00; 0x06; 0xcc; 0x09; 0x00];
      [0x00; 0x00; 0x66; 0x76; 0x00; 0x00]; [0x00; 0x03; 0xcb; 0x0c; 0x00; 0x00];
      [0x00; 0x5a; 0x82; 0x00; 0x00; 0x00]; [0x01; 0xc8; 0x12; 0x00; 0x00; 0x00];
      [0x35; 0xe7; 0xac; 0xac; 0xac; 0x28]; [0x00; 0x00; 0x00; 0x00; 0x00; 0x00];
      [0x00; 0x00; 0x00; 0x00; 0x00; 0x00]; [0x00; 0x00; 0x00; 0x00; 0x00; 0x00]]);
  (0x5b, [ (* U+005B *)
      [0x00; 0x9a; 0xac; 0xac; 0xac; 0x00]; [0x00; 0xbc; 0x00; 0x00; 0x00; 0x00];
      [0x00; 0xbc; 0x00; 0x00; 0x00; 0x00]; [0x00; 0xbc; 0x00; 0x00; 0x00; 0x00];
      [0x00; 0xbc; 0x00; 0x00; 0x00; 0x00]; [0x00; 0xbc; 0x00; 0x00; 0x00; 0x00];
      [0x00; 0xbc; 0x00; 0x00; 0x00; 0x00]; [0x00; 0xbc; 0x00; 0x00; 0x00; 0x00];
      [0x00; 0xbc; 0x00; 0x00; 0x00; 0x00]; [0x00; 0xbc; 0x00; 0x00; 0x00; 0x00];
      [0x00; 0xbc; 0x00; 0x00; 0x00; 0x00]; [0x00; 0xbc; 0x00; 0x00; 0x00; 0x00];
      [0x00; 0xc3; 0xa8; 0xa8; 0xa8; 0x00]; [0x00; 0x03; 0x04; 0x04; 0x04; 0x00]]);
  (0x5c, [ (* U+005C *)
      [0x22; 0x76; 0x00; 0x00; 0x00; 0x00]; [0x01; 0xc2; 0x00; 0x00; 0x00; 0x00];
      [0x00; 0x9e; 0x26; 0x00; 0x00; 0x00]; [0x00; 0x52; 0x72; 0x00; 0x00; 0x00];
      [0x00; 0x0c; 0xb7; 0x00; 0x00; 0x00]; [0x00; 0x00; 0xb4; 0x0f; 0x00; 0x00];
      [0x00; 0x00; 0x6e; 0x56; 0x00; 0x00]; [0x00; 0x00; 0x21; 0xa1; 0x00; 0x00];
      [0x00; 0x00; 0x00; 0xc1; 0x02; 0x00]; [0x00; 0x00; 0x00; 0x8a; 0x3a; 0x00];
      [0x00; 0x00; 0x00; 0x3e; 0x86; 0x00]; [0x00; 0x00; 0x00; 0x03; 0xc0; 0x00];
      [0x00; 0x00; 0x00; 0x00; 0xa5; 0x1e]; [0x00; 0x00; 0x00; 0x00; 0x01; 0x01]]);
  (0x5d, [ (* U+005D *)
      [0x00; 0xac; 0xac; 0xac; 0x9a; 0x00]; [0x00; 0x00; 0x00; 0x00; 0xbc; 0x00];
      [0x00; 0x00; 0x00; 0x00; 0xbc; 0x00]; [0x00; 0x00; 0x00; 0x00; 0xbc; 0x00];
      [0x00; 0x00; 0x00; 0x00; 0xbc; 0x00]; [0x00; 0x00; 0x00; 0x00; 0xbc; 0x00];
      [0x00; 0x00; 0x00; 0x00; 0xbc; 0x00]; [0x00; 0x00; 0x00; 0x00; 0xbc; 0x00];
      [0x00; 0x00; 0x00; 0x00; 0xbc; 0x00]; [0x00; 0x00; 0x00; 0x00; 0xbc; 0x00];
      [0x00; 0x00; 0x00; 0x00; 0xbc; 0x00]; [0x00; 0x00; 0x00; 0x00; 0xbc; 0x00];
      [0x00; 0xa8; 0xa8; 0xa8; 0xc3; 0x00]; [0x00; 0x04; 0x04; 0x04; 0x03; 0x00]]);
  (0x5e, [ (* U+005E *)
      [0x00; 0x00; 0x00; 0x00; 0x00; 0x00]; [0x00; 0x00; 0x21; 0x20; 0x00; 0x00];
      [0x00; 0x16; 0xb8; 0xb6; 0x13; 0x00]; [0x02; 0xb3; 0x2d; 0x2f; 0xaf; 0x01];
      [0x02; 0x35; 0x00; 0x00; 0x36; 0x02]; [0x00; 0x00; 0x00; 0x00; 0x00; 0x00];
      [0x00; 0x00; 0x00; 0x00; 0x00; 0x00]; [0x00; 0x00; 0x00; 0x00; 0x00; 0x00];
      [0x00; 0x00; 0x00; 0x00; 0x00; 0x00]; [0x00; 0x00; 0x00; 0x00; 0x00; 0x00];
      [0x00; 0x00; 0x00; 0x00; 0x00; 0x00]; [0x00; 0x00; 0x00; 0x00; 0x00; 0x00];
      [0x00; 0x00; 0x00; 0x00; 0x00; 0x00]; [0x00; 0x00; 0x00; 0x00; 0x00; 0x00]]);
  (0x5f, [ (* U+005F *)
      [0x00; 0x00; 0x00; 0x00; 0x00; 0x00]; [0x00; 0x00; 0x00; 0x00; 0x00; 0x00];
      [0x00; 0x00; 0x00; 0x00; 0x00; 0x00]; [0x00; 0x00; 0x00; 0x00; 0x00; 0x00];
      [0x00; 0x00; 0x00; 0x00; 0x00; 0x00]; [0x00; 0x00; 0x00; 0x00; 0x00; 0x00];
      [0x00; 0x00; 0x00; 0x00; 0x00; 0x00]; [0x00; 0x00; 0x00; 0x00; 0x00; 0x00];
      [0x00; 0x00; 0x00; 0x00; 0x00; 0x00]; [0x00; 0x00; 0x00; 0x00; 0x00; 0x00];
      [0x00; 0x00; 0x00; 0x00; 0x00; 0x00]; [0x00; 0x00; 0x00; 0x00; 0x00; 0x00];
      [0x1c; 0x78; 0x78; 0x78; 0x78; 0x1c]; [0x0c; 0x34; 0x34; 0x34; 0x34; 0x0c]]);
  (0x60, [ (* U+0060 *)
      [0x00; 0x00; 0x00; 0x00; 0x00; 0x00]; [0x00; 0x1e; 0x01; 0x00; 0x00; 0x00];
      [0x00; 0x77; 0x7a; 0x00; 0x00; 0x00]; [0x00; 0x00; 0x9d; 0x43; 0x00; 0x00];
      [0x00; 0x00; 0x06; 0x36; 0x00; 0x00]; [0x00; 0x00; 0x00; 0x00; 0x00; 0x00];
      [0x00; 0x00; 0x00; 0x00; 0x00; 0x00]; [0x00; 0x00; 0x00; 0x00; 0x00; 0x00];
      [0x00; 0x00; 0x00; 0x00; 0x00; 0x00]; [0x00; 0x00; 0x00; 0x00; 0x00; 0x00];
      [0x00; 0x00; 0x00; 0x00; 0x00; 0x00]; [0x00; 0x00; 0x00; 0x00; 0x00; 0x00];
      [0x00; 0x00; 0x00; 0x00; 0x00; 0x00]; [0x00; 0x00; 0x00; 0x00; 0x00; 0x00]]);
  (0x61, [ (* U+0061 *)
      [0x00; 0x00; 0x00; 0x00; 0x00; 0x00]; [0x00; 0x00; 0x00; 0x00; 0x00; 0x00];
      [0x00; 0x00; 0x00; 0x00; 0x00; 0x00]; [0x00; 0x00; 0x00; 0x00; 0x00; 0x00];
      [0x00; 0x17; 0x65; 0x61; 0x10; 0x00]; [0x11; 0xc5; 0x4d; 0x53; 0xc2; 0x05];
      [0x0d; 0x29; 0x00; 0x00; 0x8d; 0x34]; [0x00; 0x41; 0xa0; 0xac; 0xd7; 0x3c];
      [0x29; 0xb7; 0x15; 0x00; 0x86; 0x3c]; [0x4b; 0x7c; 0x00; 0x00; 0xbc; 0x3c];
      [0x0a; 0xbe; 0xa0; 0xa0; 0xae; 0x3c]; [0x00; 0x00; 0x10; 0x01; 0x00; 0x00];
      [0x00; 0x00; 0x00; 0x00; 0x00; 0x00]; [0x00; 0x00; 0x00; 0x00; 0x00; 0x00]]);
  (0x62, [ (* U+0062 *)
      [0x00; 0x00; 0x00; 0x00; 0x00; 0x00]; [0x00; 0x00; 0x00; 0x00; 0x00; 0x00];
      [0x30; 0x6b; 0x00; 0x00; 0x00; 0x00]; [0x3c; 0x84; 0x00; 0x00; 0x00; 0x00];
      [0x3c; 0x84; 0x4b; 0x69; 0x14; 0x00]; [0x3c; 0xd6; 0x5b; 0x55; 0xc7; 0x03];
      [0x3c; 0xa1; 0x00; 0x00; 0x8b; 0x38]; [0x3c; 0x84; 0x00; 0x00; 0x6d; 0x52];
      [0x3c; 0x89; 0x00; 0x00; 0x72; 0x4d]; [0x3c; 0xc1; 0x00; 0x00; 0xac; 0x23];
      [0x3c; 0xb1; 0xa2; 0xb1; 0x8e; 0x00]; [0x00; 0x00; 0x03; 0x0c; 0x00; 0x00];
      [0x00; 0x00; 0x00; 0x00; 0x00; 0x00]; [0x00; 0x00; 0x00; 0x00; 0x00; 0x00]]);
  (0x63, [ (* U+0063 *)
      [0x00; 0x00; 0x00; 0x00; 0x00; 0x00]; [0x00; 0x00; 0x00; 0x00; 0x00; 0x00];
      [0x00; 0x00; 0x00; 0x00; 0x00; 0x00]; [0x00; 0x00; 0x00; 0x00; 0x00; 0x00];
      [0x00; 0x0d; 0x62; 0x62; 0x0e; 0x00]; [0x02; 0xbb; 0x57; 0x52; 0xbf; 0x05];
      [0x3b; 0x88; 0x00; 0x00; 0x5a; 0x20]; [0x53; 0x6c; 0x00; 0x00; 0x00; 0x00];
      [0x4e; 0x6f; 0x00; 0x00; 0x02; 0x00]; [0x21; 0xa9; 0x00; 0x00; 0xa2; 0x26];
      [0x00; 0x7d; 0xaf; 0xab; 0x85; 0x00]; [0x00; 0x00; 0x07; 0x09; 0x00; 0x00];
      [0x00; 0x00; 0x00; 0x00; 0x00; 0x00]; [0x00; 0x00; 0x00; 0x00; 0x00; 0x00]]);
  (0x64, [ (* U+0064 *)
      [0x00; 0x00; 0x00; 0x00; 0x00; 0x00]; [0x00; 0x00; 0x00; 0x00; 0x00; 0x00];
      [0x00; 0x00; 0x00; 0x00; 0x6b; 0x30]; [0x00; 0x00; 0x00; 0x00; 0x84; 0x3c];
      [0x00; 0x14; 0x69; 0x4a; 0x84; 0x3c]; [0x05; 0xc8; 0x54; 0x5c; 0xd5; 0x3c];
      [0x3e; 0x87; 0x00; 0x00; 0xa3; 0x3c]; [0x53; 0x6c; 0x00; 0x00; 0x85; 0x3c];
      [0x4e; 0x6f; 0x00; 0x00; 0x8a; 0x3c]; [0x27; 0xaa; 0x00; 0x00; 0xc2; 0x3c];
      [0x00; 0x90; 0xb0; 0xa2; 0xb0; 0x3c]; [0x00; 0x00; 0x0c; 0x03; 0x00; 0x00];
      [0x00; 0x00; 0x00; 0x00; 0x00; 0x00]; [0x00; 0x00; 0x00; 0x00; 0x00; 0x00]]);
  (0x65, [ (* U+0065 *)
      [0x00; 0x00; 0x00; 0x00; 0x00; 0x00]; [0x00; 0x00; 0x00; 0x00; 0x00; 0x00];
      [0x00; 0x00; 0x00; 0x00; 0x00; 0x00]; [0x00; 0x00; 0x00; 0x00; 0x00; 0x00];
      [0x00; 0x0d; 0x62; 0x61; 0x0c; 0x00]; [0x02; 0xbc; 0x54; 0x55; 0xbb; 0x02];
      [0x3b; 0x87; 0x00; 0x00; 0x8b; 0x36]; [0x53; 0xb8; 0x84; 0x84; 0xb9; 0x52];
      [0x4e; 0x86; 0x28; 0x28; 0x28; 0x0d]; [0x20; 0xad; 0x00; 0x00; 0x6e; 0x26];
      [0x00; 0x79; 0xb2; 0xa7; 0x95; 0x00]; [0x00; 0x00; 0x07; 0x0a; 0x00; 0x00];
      [0x00; 0x00; 0x00; 0x00; 0x00; 0x00]; [0x00; 0x00; 0x00; 0x00; 0x00; 0x00]]);
  (0x66, [ (* U+0066 *)
      [0x00; 0x00; 0x00; 0x00; 0x00; 0x00]; [0x00; 0x00; 0x00; 0x0f; 0x06; 0x00];
      [0x00; 0x00; 0x68; 0xaf; 0xc2; 0x22]; [0x00; 0x00; 0xc1; 0x02; 0x2d; 0x30];
      [0x00; 0x00; 0xc0; 0x00; 0x00; 0x00]; [0x28; 0xac; 0xeb; 0xac; 0xac; 0x00];
      [0x00; 0x00; 0xc0; 0x00; 0x00; 0x00]; [0x00; 0x00; 0xc0; 0x00; 0x00; 0x00];
      [0x00; 0x00; 0xc0; 0x00; 0x00; 0x00]; [0x00; 0x00; 0xc0; 0x00; 0x00; 0x00];
      [0x00; 0x00; 0xc0; 0x00; 0x00; 0x00]; [0x00; 0x00; 0x00; 0x00; 0x00; 0x00];
      [0x00; 0x00; 0x00; 0x00; 0x00; 0x00]; [0x00; 0x00; 0x00; 0x00; 0x00; 0x00]]);
  (0x67, [ (* U+0067 *)
      [0x00; 0x00; 0x00; 0x00; 0x00; 0x00]; [0x00; 0x00; 0x00; 0x00; 0x00; 0x00];
      [0x00; 0x00; 0x00; 0x00; 0x00; 0x00]; [0x00; 0x00; 0x00; 0x00; 0x00; 0x00];
      [0x00; 0x14; 0x69; 0x4a; 0x2f; 0x15]; [0x05; 0xc8; 0x54; 0x5c; 0xd5; 0x3c];
      [0x3e; 0x87; 0x00; 0x00; 0xa3; 0x3c]; [0x53; 0x6c; 0x00; 0x00; 0x85; 0x3c];
      [0x4e; 0x6f; 0x00; 0x00; 0x8a; 0x3c]; [0x27; 0xaa; 0x00; 0x00; 0xc2; 0x3c];
      [0x00; 0x90; 0xb0; 0xa2; 0xb1; 0x3b]; [0x00; 0x08; 0x0c; 0x03; 0xa0; 0x22];
      [0x19; 0xbf; 0x2f; 0x4e; 0xb8; 0x00]; [0x00; 0x28; 0x82; 0x72; 0x0e; 0x00]]);
  (0x68, [ (* U+0068 *)
      [0x00; 0x00; 0x00; 0x00; 0x00; 0x00]; [0x00; 0x00; 0x00; 0x00; 0x00; 0x00];
      [0x30; 0x6b; 0x00; 0x00; 0x00; 0x00]; [0x3c; 0x84; 0x00; 0x00; 0x00; 0x00];
      [0x3c; 0x84; 0x4b; 0x67; 0x0f; 0x00]; [0x3c; 0xd6; 0x5b; 0x5c; 0xbc; 0x00];
      [0x3c; 0xa1; 0x00; 0x00; 0xa3; 0x22]; [0x3c; 0x84; 0x00; 0x00; 0x85; 0x3a];
      [0x3c; 0x84; 0x00; 0x00; 0x84; 0x3c]; [0x3c; 0x84; 0x00; 0x00; 0x84; 0x3c];
      [0x3c; 0x84; 0x00; 0x00; 0x84; 0x3c]; [0x00; 0x00; 0x00; 0x00; 0x00; 0x00];
      [0x00; 0x00; 0x00; 0x00; 0x00; 0x00]; [0x00; 0x00; 0x00; 0x00; 0x00; 0x00]]);
  (0x69, [ (* U+0069 *)
      [0x00; 0x00; 0x00; 0x00; 0x00; 0x00]; [0x00; 0x00; 0x00; 0x00; 0x00; 0x00];
      [0x00; 0x00; 0x69; 0x68; 0x00; 0x00]; [0x00; 0x00; 0x27; 0x27; 0x00; 0x00];
      [0x08; 0x5c; 0x5c; 0x22; 0x00; 0x00]; [0x07; 0x50; 0x92; 0x60; 0x00; 0x00];
      [0x00; 0x00; 0x60; 0x60; 0x00; 0x00]; [0x00; 0x00; 0x60; 0x60; 0x00; 0x00];
      [0x00; 0x00; 0x60; 0x60; 0x00; 0x00]; [0x00; 0x00; 0x51; 0x73; 0x00; 0x00];
      [0x00; 0x00; 0x08; 0xad; 0xad; 0x22]; [0x00; 0x00; 0x00; 0x00; 0x00; 0x00];
      [0x00; 0x00; 0x00; 0x00; 0x00; 0x00]; [0x00; 0x00; 0x00; 0x00; 0x00; 0x00]]);
  (0x6a, [ (* U+006A *)
      [0x00; 0x00; 0x00; 0x00; 0x00; 0x00]; [0x00; 0x00; 0x00; 0x00; 0x00; 0x00];
      [0x00; 0x00; 0x00; 0xb4; 0x1d; 0x00]; [0x00; 0x00; 0x00; 0x47; 0x07; 0x00];
      [0x00; 0x1f; 0x5c; 0x5c; 0x0b; 0x00]; [0x00; 0x1b; 0x50; 0xbb; 0x20; 0x00];
      [0x00; 0x00; 0x00; 0x9c; 0x20; 0x00]; [0x00; 0x00; 0x00; 0x9c; 0x20; 0x00];
      [0x00; 0x00; 0x00; 0x9c; 0x20; 0x00]; [0x00; 0x00; 0x00; 0x9c; 0x20; 0x00];
      [0x00; 0x00; 0x00; 0x9c; 0x20; 0x00]; [0x33; 0x01; 0x00; 0xa9; 0x14; 0x00];
      [0x7d; 0x70; 0x3a; 0xba; 0x00; 0x00]; [0x03; 0x68; 0x7f; 0x1a; 0x00; 0x00]]);
  (0x6b, [ (* U+006B *)
      [0x00; 0x00; 0x00; 0x00; 0x00; 0x00]; [0x00; 0x00; 0x00; 0x00; 0x00; 0x00];
      [0x30; 0x6b; 0x00; 0x00; 0x00; 0x00]; [0x3c; 0x84; 0x00; 0x00; 0x00; 0x00];
      [0x3c; 0x84; 0x00; 0x00; 0x37; 0x11]; [0x3c; 0x84; 0x00; 0x1d; 0xb2; 0x04];
      [0x3c; 0x84; 0x23; 0xb3; 0x18; 0x00]; [0x3c; 0xbf; 0xbb; 0xab; 0x00; 0x00];
      [0x3c; 0xb2; 0x05; 0x8b; 0x4c; 0x00]; [0x3c; 0x84; 0x00; 0x0c; 0xc0; 0x01];
      [0x3c; 0x84; 0x00; 0x00; 0x8e; 0x38]; [0x00; 0x00; 0x00; 0x00; 0x00; 0x00];
      [0x00; 0x00; 0x00; 0x00; 0x00; 0x00]; [0x00; 0x00; 0x00; 0x00; 0x00; 0x00]]);
  (0x6c, [ (* U+006C *)
      [0x00; 0x00; 0x00; 0x00; 0x00; 0x00]; [0x00; 0x00; 0x00; 0x00; 0x00; 0x00];
      [0x10; 0xac; 0xb9; 0x4e; 0x00; 0x00]; [0x00; 0x00; 0x60; 0x60; 0x00; 0x00];
      [0x00; 0x00; 0x60; 0x60; 0x00; 0x00]; [0x00; 0x00; 0x60; 0x60; 0x00; 0x00];
      [0x00; 0x00; 0x60; 0x60; 0x00; 0x00]; [0x00; 0x00; 0x60; 0x60; 0x00; 0x00];
      [0x00; 0x00; 0x60; 0x60; 0x00; 0x00]; [0x00; 0x00; 0x51; 0x73; 0x00; 0x00];
      [0x00; 0x00; 0x08; 0xad; 0xad; 0x22]; [0x00; 0x00; 0x00; 0x00; 0x00; 0x00];
      [0x00; 0x00; 0x00; 0x00; 0x00; 0x00]; [0x00; 0x00; 0x00; 0x00; 0x00; 0x00]]);
  (0x6d, [ (* U+006D *)
      [0x00; 0x00; 0x00; 0x00; 0x00; 0x00]; [0x00; 0x00; 0x00; 0x00; 0x00; 0x00];
      [0x00; 0x00; 0x00; 0x00; 0x00; 0x00]; [0x00; 0x00; 0x00; 0x00; 0x00; 0x00];
      [0x1e; 0x4c; 0x59; 0x2a; 0x55; 0x00]; [0x54; 0xb2; 0xa9; 0x96; 0xb2; 0x2a];
      [0x54; 0x6e; 0x63; 0x62; 0x6f; 0x50]; [0x54; 0x6c; 0x60; 0x60; 0x6c; 0x54];
      [0x54; 0x6c; 0x60; 0x60; 0x6c; 0x54]; [0x54; 0x6c; 0x60; 0x60; 0x6c; 0x54];
      [0x54; 0x6c; 0x60; 0x60; 0x6c; 0x54]; [0x00; 0x00; 0x00; 0x00; 0x00; 0x00];
      [0x00; 0x00; 0x00; 0x00; 0x00; 0x00]; [0x00; 0x00; 0x00; 0x00; 0x00; 0x00]]);
  (0x6e, [ (* U+006E *)
      [0x00; 0x00; 0x00; 0x00; 0x00; 0x00]; [0x00; 0x00; 0x00; 0x00; 0x00; 0x00];
      [0x00; 0x00; 0x00; 0x00; 0x00; 0x00]; [0x00; 0x00; 0x00; 0x00; 0x00; 0x00];
      [0x15; 0x2f; 0x4b; 0x67; 0x0f; 0x00]; [0x3c; 0xd6; 0x5b; 0x5c; 0xbc; 0x00];
      [0x3c; 0xa1; 0x00; 0x00; 0xa3; 0x22]; [0x3c; 0x84; 0x00; 0x00; 0x85; 0x3a];
      [0x3c; 0x84; 0x00; 0x00; 0x84; 0x3c]; [0x3c; 0x84; 0x00; 0x00; 0x84; 0x3c];
      [0x3c; 0x84; 0x00; 0x00; 0x84; 0x3c]; [0x00; 0x00; 0x00; 0x00; 0x00; 0x00];
      [0x00; 0x00; 0x00; 0x00; 0x00; 0x00]; [0x00; 0x00; 0x00; 0x00; 0x00; 0x00]]);
  (0x6f, [ (* U+006F *)
      [0x00; 0x00; 0x00; 0x00; 0x00; 0x00]; [0x00; 0x00; 0x00; 0x00; 0x00; 0x00];
      [0x00; 0x00; 0x00; 0x00; 0x00; 0x00]; [0x00; 0x00; 0x00; 0x00; 0x00; 0x00];
      [0x00; 0x0d; 0x62; 0x61; 0x0c; 0x00]; [0x02; 0xbc; 0x54; 0x55; 0xbb; 0x02];
      [0x3b; 0x87; 0x00; 0x00; 0x8b; 0x36]; [0x53; 0x6c; 0x00; 0x00; 0x6d; 0x52];
      [0x4e; 0x6f; 0x00; 0x00; 0x72; 0x4d]; [0x23; 0xa9; 0x00; 0x00; 0xab; 0x1f];
      [0x00; 0x7e; 0xac; 0xad; 0x7c; 0x00]; [0x00; 0x00; 0x08; 0x08; 0x00; 0x00];
      [0x00; 0x00; 0x00; 0x00; 0x00; 0x00]; [0x00; 0x00; 0x00; 0x00; 0x00; 0x00]]);
  (0x70, [ (* U+0070 *)
      [0x00; 0x00; 0x00; 0x00; 0x00; 0x00]; [0x00; 0x00; 0x00; 0x00; 0x00; 0x00];
      [0x00; 0x00; 0x00; 0x00; 0x00; 0x00]; [0x00; 0x00; 0x00; 0x00; 0x00; 0x00];
      [0x15; 0x2f; 0x4b; 0x69; 0x14; 0x00]; [0x3c; 0xd6; 0x5b; 0x55; 0xc7; 0x03];
      [0x3c; 0xa1; 0x00; 0x00; 0x8b; 0x38]; [0x3c; 0x84; 0x00; 0x00; 0x6d; 0x52];
      [0x3c; 0x89; 0x00; 0x00; 0x72; 0x4d]; [0x3c; 0xc1; 0x00; 0x00; 0xac; 0x23];
      [0x3c; 0xb1; 0xa2; 0xb1; 0x8e; 0x00]; [0x3c; 0x84; 0x03; 0x0c; 0x00; 0x00];
      [0x3c; 0x84; 0x00; 0x00; 0x00; 0x00]; [0x1b; 0x3b; 0x00; 0x00; 0x00; 0x00]]);
  (0x71, [ (* U+0071 *)
      [0x00; 0x00; 0x00; 0x00; 0x00; 0x00]; [0x00; 0x00; 0x00; 0x00; 0x00; 0x00];
      [0x00; 0x00; 0x00; 0x00; 0x00; 0x00]; [0x00; 0x00; 0x00; 0x00; 0x00; 0x00];
      [0x00; 0x14; 0x69; 0x4a; 0x2f; 0x15]; [0x05; 0xc8; 0x54; 0x5c; 0xd5; 0x3c];
      [0x3e; 0x87; 0x00; 0x00; 0xa3; 0x3c]; [0x53; 0x6c; 0x00; 0x00; 0x85; 0x3c];
      [0x4e; 0x6f; 0x00; 0x00; 0x8a; 0x3c]; [0x27; 0xaa; 0x00; 0x00; 0xc2; 0x3c];
      [0x00; 0x90; 0xb0; 0xa2; 0xb0; 0x3c]; [0x00; 0x00; 0x0c; 0x03; 0x84; 0x3c];
      [0x00; 0x00; 0x00; 0x00; 0x84; 0x3c]; [0x00; 0x00; 0x00; 0x00; 0x3b; 0x1b]]);
  (0x72, [ (* U+0072 *)
      [0x00; 0x00; 0x00; 0x00; 0x00; 0x00]; [0x00; 0x00; 0x00; 0x00; 0x00; 0x00];
      [0x00; 0x00; 0x00; 0x00; 0x00; 0x00]; [0x00; 0x00; 0x00; 0x00; 0x00; 0x00];
      [0x00; 0x2f; 0x1c; 0x63; 0x48; 0x00]; [0x00; 0x84; 0xac; 0x49; 0xa1; 0x33];
      [0x00; 0x84; 0x67; 0x00; 0x00; 0x00]; [0x00; 0x84; 0x3f; 0x00; 0x00; 0x00];
      [0x00; 0x84; 0x3c; 0x00; 0x00; 0x00]; [0x00; 0x84; 0x3c; 0x00; 0x00; 0x00];
      [0x00; 0x84; 0x3c; 0x00; 0x00; 0x00]; [0x00; 0x00; 0x00; 0x00; 0x00; 0x00];
      [0x00; 0x00; 0x00; 0x00; 0x00; 0x00]; [0x00; 0x00; 0x00; 0x00; 0x00; 0x00]]);
  (0x73, [ (* U+0073 *)
      [0x00; 0x00; 0x00; 0x00; 0x00; 0x00]; [0x00; 0x00; 0x00; 0x00; 0x00; 0x00];
      [0x00; 0x00; 0x00; 0x00; 0x00; 0x00]; [0x00; 0x00; 0x00; 0x00; 0x00; 0x00];
      [0x00; 0x19; 0x65; 0x65; 0x18; 0x00]; [0x14; 0xc5; 0x4a; 0x4b; 0xc3; 0x16];
      [0x36; 0x93; 0x00; 0x00; 0x0d; 0x00]; [0x02; 0xa7; 0xad; 0x76; 0x1d; 0x00];
      [0x00; 0x00; 0x18; 0x4f; 0xc9; 0x11]; [0x13; 0x47; 0x00; 0x00; 0x90; 0x34];
      [0x03; 0xa2; 0xa8; 0xa7; 0xa0; 0x03]; [0x00; 0x00; 0x0b; 0x07; 0x00; 0x00];
      [0x00; 0x00; 0x00; 0x00; 0x00; 0x00]; [0x00; 0x00; 0x00; 0x00; 0x00; 0x00]]);
  (0x74, [ (* U+0074 *)
      [0x00; 0x00; 0x00; 0x00; 0x00; 0x00]; [0x00; 0x00; 0x00; 0x00; 0x00; 0x00];
      [0x00; 0x00; 0x98; 0x00; 0x00; 0x00]; [0x00; 0x00; 0xbc; 0x00; 0x00; 0x00];
      [0x22; 0x5c; 0xd4; 0x5c; 0x4c; 0x00]; [0x1e; 0x50; 0xd1; 0x50; 0x42; 0x00];
      [0x00; 0x00; 0xbc; 0x00; 0x00; 0x00]; [0x00; 0x00; 0xbc; 0x00; 0x00; 0x00];
      [0x00; 0x00; 0xbc; 0x00; 0x00; 0x00]; [0x00; 0x00; 0xc2; 0x02; 0x0b; 0xaa];
      [0x00; 0x00; 0x5f; 0xb5; 0xbc; 0x46]; [0x00; 0x00; 0x00; 0x09; 0x06; 0x00];
      [0x00; 0x00; 0x00; 0x00; 0x00; 0x00]; [0x00; 0x00; 0x00; 0x00; 0x00; 0x00]]);
  (0x75, [ (* U+0075 *)
      [0x00; 0x00; 0x00; 0x00; 0x00; 0x00]; [0x00; 0x00; 0x00; 0x00; 0x00; 0x00];
      [0x00; 0x00; 0x00; 0x00; 0x00; 0x00]; [0x00; 0x00; 0x00; 0x00; 0x00; 0x00];
      [0x15; 0x2f; 0x00; 0x00; 0x2f; 0x15]; [0x3c; 0x84; 0x00; 0x00; 0x84; 0x3c];
      [0x3c; 0x84; 0x00; 0x00; 0x84; 0x3c]; [0x3c; 0x84; 0x00; 0x00; 0x84; 0x3c];
      [0x38; 0x89; 0x00; 0x00; 0x8a; 0x3c]; [0x14; 0xbd; 0x00; 0x00; 0xc2; 0x3c];
      [0x00; 0x7f; 0xb6; 0xa2; 0xb0; 0x3c]; [0x00; 0x00; 0x0c; 0x03; 0x00; 0x00];
      [0x00; 0x00; 0x00; 0x00; 0x00; 0x00]; [0x00; 0x00; 0x00; 0x00; 0x00; 0x00]]);
  (0x76, [ (* U+0076 *)
      [0x00; 0x00; 0x00; 0x00; 0x00; 0x00]; [0x00; 0x00; 0x00; 0x00; 0x00; 0x00];
      [0x00; 0x00; 0x00; 0x00; 0x00; 0x00]; [0x00; 0x00; 0x00; 0x00; 0x00; 0x00];
      [0x15; 0x2f; 0x00; 0x00; 0x2f; 0x15]; [0x34; 0x89; 0x00; 0x00; 0x8b; 0x33];
      [0x11; 0xab; 0x00; 0x00; 0xaf; 0x0e]; [0x00; 0xb9; 0x06; 0x08; 0xb6; 0x00];
      [0x00; 0x72; 0x4e; 0x54; 0x68; 0x00]; [0x00; 0x14; 0xab; 0xad; 0x0f; 0x00];
      [0x00; 0x00; 0x97; 0x93; 0x00; 0x00]; [0x00; 0x00; 0x00; 0x00; 0x00; 0x00];
      [0x00; 0x00; 0x00; 0x00; 0x00; 0x00]; [0x00; 0x00; 0x00; 0x00; 0x00; 0x00]]);
  (0x77, [ (* U+0077 *)
      [0x00; 0x00; 0x00; 0x00; 0x00; 0x00]; [0x00; 0x00; 0x00; 0x00; 0x00; 0x00];
      [0x00; 0x00; 0x00; 0x00; 0x00; 0x00]; [0x00; 0x00; 0x00; 0x00; 0x00; 0x00];
      [0x15; 0x2f; 0x00; 0x00; 0x2f; 0x15]; [0x3c; 0x84; 0x00; 0x00; 0x84; 0x3c];
      [0x38; 0x85; 0x00; 0x00; 0x87; 0x35]; [0x1f; 0x95; 0x52; 0x51; 0x9b; 0x19];
      [0x01; 0xa2; 0x92; 0x90; 0xa7; 0x00]; [0x00; 0x96; 0x91; 0x93; 0x97; 0x00];
      [0x00; 0x76; 0x5e; 0x60; 0x74; 0x00]; [0x00; 0x00; 0x00; 0x00; 0x00; 0x00];
      [0x00; 0x00; 0x00; 0x00; 0x00; 0x00]; [0x00; 0x00; 0x00; 0x00; 0x00; 0x00]]);
  (0x78, [ (* U+0078 *)
      [0x00; 0x00; 0x00; 0x00; 0x00; 0x00]; [0x00; 0x00; 0x00; 0x00; 0x00; 0x00];
      [0x00; 0x00; 0x00; 0x00; 0x00; 0x00]; [0x00; 0x00; 0x00; 0x00; 0x00; 0x00];
      [0x13; 0x33; 0x00; 0x00; 0x33; 0x12]; [0x0a; 0xc3; 0x07; 0x08; 0xc3; 0x09];
      [0x00; 0x5b; 0x86; 0x88; 0x59; 0x00]; [0x00; 0x00; 0xab; 0xaa; 0x00; 0x00];
      [0x00; 0x0d; 0xc4; 0xc3; 0x0c; 0x00]; [0x00; 0x96; 0x49; 0x4b; 0x95; 0x00];
      [0x1e; 0xae; 0x00; 0x00; 0xae; 0x1c]; [0x00; 0x00; 0x00; 0x00; 0x00; 0x00];
      [0x00; 0x00; 0x00; 0x00; 0x00; 0x00]; [0x00; 0x00; 0x00; 0x00; 0x00; 0x00]]);
  (0x79, [ (* U+0079 *)
      [0x00; 0x00; 0x00; 0x00; 0x00; 0x00]; [0x00; 0x00; 0x00; 0x00; 0x00; 0x00];
      [0x00; 0x00; 0x00; 0x00; 0x00; 0x00]; [0x00; 0x00; 0x00; 0x00; 0x00; 0x00];
      [0x15; 0x2f; 0x00; 0x00; 0x2f; 0x15]; [0x2f; 0x93; 0x00; 0x00; 0x93; 0x2d];
      [0x06; 0xc2; 0x00; 0x00; 0xc1; 0x03]; [0x00; 0xa1; 0x24; 0x2a; 0x9d; 0x00];
      [0x00; 0x48; 0x7c; 0x84; 0x44; 0x00]; [0x00; 0x04; 0xbe; 0xc2; 0x03; 0x00];
      [0x00; 0x00; 0x92; 0x90; 0x00; 0x00]; [0x00; 0x00; 0x92; 0x36; 0x00; 0x00];
      [0x00; 0x00; 0xc0; 0x00; 0x00; 0x00]; [0x00; 0x00; 0x54; 0x00; 0x00; 0x00]]);
  (0x7a, [ (* U+007A *)
      [0x00; 0x00; 0x00; 0x00; 0x00; 0x00]; [0x00; 0x00; 0x00; 0x00; 0x00; 0x00];
      [0x00; 0x00; 0x00; 0x00; 0x00; 0x00]; [0x00; 0x00; 0x00; 0x00; 0x00; 0x00];
      [0x15; 0x5c; 0x5c; 0x5c; 0x5c; 0x15]; [0x12; 0x50; 0x50; 0x55; 0xe0; 0x1c];
      [0x00; 0x00; 0x00; 0x86; 0x62; 0x00]; [0x00; 0x00; 0x3e; 0xa8; 0x00; 0x00];
      [0x00; 0x10; 0xc6; 0x11; 0x00; 0x00]; [0x00; 0xa6; 0x41; 0x00; 0x00; 0x00];
      [0x32; 0xed; 0xac; 0xac; 0xac; 0x28]; [0x00; 0x00; 0x00; 0x00; 0x00; 0x00];
      [0x00; 0x00; 0x00; 0x00; 0x00; 0x00]; [0x00; 0x00; 0x00; 0x00; 0x00; 0x00]]);
  (0x7b, [ (* U+007B *)
      [0x00; 0x00; 0x0e; 0x93; 0xad; 0x00]; [0x00; 0x00; 0x98; 0x49; 0x00; 0x00];
      [0x00; 0x00; 0xbc; 0x04; 0x00; 0x00]; [0x00; 0x00; 0x83; 0x45; 0x00; 0x00];
      [0x00; 0x00; 0x3b; 0x87; 0x00; 0x00]; [0x00; 0x00; 0x6f; 0x69; 0x00; 0x00];
      [0x00; 0xc6; 0xd0; 0x04; 0x00; 0x00]; [0x00; 0x08; 0x9b; 0x4e; 0x00; 0x00];
      [0x00; 0x00; 0x36; 0x8a; 0x00; 0x00]; [0x00; 0x00; 0x6e; 0x5a; 0x00; 0x00];
      [0x00; 0x00; 0xb5; 0x0c; 0x00; 0x00]; [0x00; 0x00; 0xac; 0x24; 0x00; 0x00];
      [0x00; 0x00; 0x25; 0xb7; 0x98; 0x00]; [0x00; 0x00; 0x00; 0x00; 0x15; 0x00]]);
  (0x7c, [ (* U+007C *)
      [0x00; 0x00; 0x4b; 0x4b; 0x00; 0x00]; [0x00; 0x00; 0x60; 0x60; 0x00; 0x00];
      [0x00; 0x00; 0x60; 0x60; 0x00; 0x00]; [0x00; 0x00; 0x60; 0x60; 0x00; 0x00];
      [0x00; 0x00; 0x60; 0x60; 0x00; 0x00]; [0x00; 0x00; 0x60; 0x60; 0x00; 0x00];
      [0x00; 0x00; 0x60; 0x60; 0x00; 0x00]; [0x00; 0x00; 0x60; 0x60; 0x00; 0x00];
      [0x00; 0x00; 0x60; 0x60; 0x00; 0x00]; [0x00; 0x00; 0x60; 0x60; 0x00; 0x00];
      [0x00; 0x00; 0x60; 0x60; 0x00; 0x00]; [0x00; 0x00; 0x60; 0x60; 0x00; 0x00];
      [0x00; 0x00; 0x60; 0x60; 0x00; 0x00]; [0x00; 0x00; 0x01; 0x01; 0x00; 0x00]]);
  (0x7d, [ (* U+007D *)
      [0x00; 0xad; 0x93; 0x0d; 0x00; 0x00]; [0x00; 0x00; 0x4a; 0x95; 0x00; 0x00];
      [0x00; 0x00; 0x06; 0xbc; 0x00; 0x00]; [0x00; 0x00; 0x49; 0x81; 0x00; 0x00];
      [0x00; 0x00; 0x8a; 0x38; 0x00; 0x00]; [0x00; 0x00; 0x6d; 0x6b; 0x00; 0x00];
      [0x00; 0x00; 0x05; 0xd1; 0xc5; 0x00]; [0x00; 0x00; 0x51; 0x98; 0x07; 0x00];
      [0x00; 0x00; 0x8c; 0x34; 0x00; 0x00]; [0x00; 0x00; 0x5c; 0x6c; 0x00; 0x00];
      [0x00; 0x00; 0x0f; 0xb5; 0x00; 0x00]; [0x00; 0x00; 0x25; 0xa9; 0x00; 0x00];
      [0x00; 0x99; 0xb7; 0x23; 0x00; 0x00]; [0x00; 0x14; 0x00; 0x00; 0x00; 0x00]]);
  (0x7e, [ (* U+007E *)
      [0x00; 0x00; 0x00; 0x00; 0x00; 0x00]; [0x00; 0x00; 0x00; 0x00; 0x00; 0x00];
      [0x00; 0x00; 0x00; 0x00; 0x00; 0x00]; [0x00; 0x00; 0x00; 0x00; 0x00; 0x00];
      [0x00; 0x00; 0x00; 0x00; 0x00; 0x00]; [0x00; 0x26; 0x3d; 0x00; 0x0e; 0x20];
      [0x0b; 0xb4; 0x9c; 0x2d; 0x75; 0x44]; [0x5d; 0x4c; 0x10; 0xb2; 0xa4; 0x00];
      [0x00; 0x00; 0x00; 0x06; 0x01; 0x00]; [0x00; 0x00; 0x00; 0x00; 0x00; 0x00];
      [0x00; 0x00; 0x00; 0x00; 0x00; 0x00]; [0x00; 0x00; 0x00; 0x00; 0x00; 0x00];
      [0x00; 0x00; 0x00; 0x00; 0x00; 0x00]; [0x00; 0x00; 0x00; 0x00; 0x00; 0x00]])
].

(** basicfont.Face *)
Record bface := BFace { bf_advance : Z; bf_width : Z; bf_height : Z; bf_ascent : Z; bf_descent : Z; bf_left : Z;
                        bf_stride : Z; bf_mask_width : Z; bf_mask_height : Z; bf_pix : list Z;
                        bf_ranges : list (Z * Z * Z) }.
(** font.go:18-1570 iosevka *)
Definition iosevka : bface :=
  BFace 6 6 12 11 3 0 6 6 (96 * 14) (concat (concat (map snd iosevka_glyphs))) [(0x0d, 0x0e, 0); (0x20, 0x7f, 1)].

(** basicfont.Face.Glyph: the number of the glyph of a character, from the first
    range it is in (Low <= r < High, number r - Low + Offset) *)
Fixpoint in_ranges (l : list (Z * Z * Z)) (r : Z) : option Z :=
  match l with
  | [] => None
  | (low, high, offset) :: l => if (r <? low) || (high <=? r) then in_ranges l r else Some (r - low + offset)
  end.
(** basicfont.Face.Glyph: maskp.Y, of the character or else of U+FFFD; None is ok = false *)
Definition glyph_y (f : bface) (r : Z) : option Z :=
  match in_ranges (bf_ranges f) r with
  | Some k => Some (k * (bf_ascent f + bf_descent f))
  | None => match in_ranges (bf_ranges f) 0xfffd with
            | Some k => Some (k * (bf_ascent f + bf_descent f))
            | None => None
            end
  end.

(** image.Rectangle *)
Record irect := IRect { ir_x0 : Z; ir_y0 : Z; ir_x1 : Z; ir_y1 : Z }.
(** image.Rectangle.Empty, Intersect, Add *)
Definition ir_empty (r : irect) : bool := (ir_x1 r <=? ir_x0 r) || (ir_y1 r <=? ir_y0 r).
Definition intersect (r s : irect) : irect :=
  let i := IRect (Z.max (ir_x0 r) (ir_x0 s)) (Z.max (ir_y0 r) (ir_y0 s)) (Z.min (ir_x1 r) (ir_x1 s)) (Z.min (ir_y1 r) (ir_y1 s)) in
  if ir_empty i then IRect 0 0 0 0 else i.
Definition ir_add (r : irect) (x y : Z) : irect := IRect (ir_x0 r + x) (ir_y0 r + y) (ir_x1 r + x) (ir_y1 r + y).
(** image/draw's clip: the rectangle that is drawn.  Its arguments are the bounds of
    the destination, of the source (image.Uniform: 1e9 in all directions, sp is zero)
    and of the mask. *)
Definition clip (dst r mask : irect) (mx my : Z) : irect :=
  let big := 1000000000 in
  let c := intersect r dst in
  let c := intersect c (ir_add (IRect (- big) (- big) big big) (ir_x0 r) (ir_y0 r)) in
  intersect c (ir_add mask (ir_x0 r - mx) (ir_y0 r - my)).

Definition u32 (v : Z) : Z := v mod 2 ^ 32.
(** image/draw's drawGlyphOver: one channel [d] of a pixel under the mask's value
    [ma], with the source's channel [s] and alpha [sa] (16 bits) *)
Definition mix (ma s sa d : Z) : Z :=
  let m := 65535 in
  let ma := Z.lor ma (Z.shiftl ma 8) in
  let a := u32 ((m - u32 (sa * ma) / m) * 0x101) in
  (Z.shiftr (u32 (u32 (d * a) + u32 (s * ma)) / m) 8) mod 256.
(** the source is image.Black: colour 0, alpha 0xffff *)
Definition over_pixel (ma : Z) (p : list Z) : list Z :=
  if ma =? 0 then p
  else match p with
       | [r; g; b; a] => [mix ma 0 0xffff r; mix ma 0 0xffff g; mix ma 0 0xffff b; mix ma 0xffff 0xffff a]
       | _ => p
       end.
(** one round of its loops: the byte at [mi] of the mask over the four at [i] *)
Definition over_at (mask : list Z) (mi i : Z) (pix : list Z) : res (list Z) :=
  if (mi <? 0) || (len mask <=? mi) then Panic
  else
    let ma := nth (Z.to_nat mi) mask 0 in
    if ma =? 0 then Ok pix
    else if (0 <=? i) && (i + 4 <=? len pix) then Ok (put i (over_pixel ma (sub i 4 pix)) pix)
    else Panic.
(** image/draw.DrawMask(dst, r, image.Black, image.Point{}, mask, (mx, my), draw.Over)
    with dst the RGBA of common.go:82-90: clip and drawGlyphOver's loops *)
Definition draw_mask (f : bface) (m : rgb) (r : irect) (mx my : Z) (pix : list Z) : res (list Z) :=
  let c := clip (IRect (img_min_x m) (img_min_y m) (img_max_x m) (img_max_y m)) r (IRect 0 0 (bf_mask_width f) (bf_mask_height f)) mx my in
  if ir_empty c then Ok pix
  else
    let mx := mx + (ir_x0 c - ir_x0 r) in
    let my := my + (ir_y0 c - ir_y0 r) in
    for_to (ir_y0 c) (ir_y1 c) (fun y pix =>
      for_to (ir_x0 c) (ir_x1 c) (fun x pix =>
        over_at (bf_pix f) ((my + (y - ir_y0 c)) * bf_stride f + (mx + (x - ir_x0 c))) (img_off m x y) pix) pix) pix.

(** font.Drawer.DrawString from the dot ([dx], [dy]) (1/64 pixel): the dot's X
    afterwards and the picture.  basicfont's Kern is 0.  A character without a glyph
    is skipped. *)
Fixpoint draw_string (f : bface) (m : rgb) (dx dy : Z) (t : list Z) (pix : list Z) : res (Z * list Z) :=
  match t with
  | [] => Ok (dx, pix)
  | c :: t =>
    match glyph_y f c with
    | None => draw_string f m dx dy t pix
    | Some my =>
      let x := Z.shiftr (dx + 32) 6 + bf_left f in
      let y := Z.shiftr (dy + 32) 6 in
      do pix <- draw_mask f m (IRect x (y - bf_ascent f) (x + bf_width f) (y + bf_descent f)) 0 my pix;
      draw_string f m (dx + fix6 (bf_advance f)) dy t pix
    end
  end.
(** what axis.go:214, 330 and obs.go:114 do with it *)
Definition iosevka_text (m : rgb) (dx dy : Z) (t : list Z) (pix : list Z) : list Z :=
  match draw_string iosevka m dx dy t pix with Ok (_, pix') => pix' | _ => pix end.

(** font.BoundString with basicfont.Face.GlyphBounds (every character has bounds, also
    those without a glyph) and fixed.Rectangle26_6.Union; [b], [adv] so far *)
Definition r_empty (r : rect) : bool := (r_maxx r <=? r_minx r) || (r_maxy r <=? r_miny r).
Definition r_union (r s : rect) : rect :=
  if r_empty r then s else if r_empty s then r
  else Rect (Z.min (r_minx r) (r_minx s)) (Z.min (r_miny r) (r_miny s)) (Z.max (r_maxx r) (r_maxx s)) (Z.max (r_maxy r) (r_maxy s)).
Fixpoint bound_string (f : bface) (b : rect) (adv : Z) (t : list Z) : rect * Z :=
  match t with
  | [] => (b, adv)
  | _ :: t => bound_string f (r_union b (Rect adv (fix6 (- bf_ascent f)) (fix6 (bf_width f) + adv) (fix6 (bf_descent f)))) (adv + fix6 (bf_advance f)) t
  end.
