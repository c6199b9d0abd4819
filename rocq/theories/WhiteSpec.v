(** * The characters of white space *)

From Verif Require Import Base.
Local Open Scope Z_scope.

(** The code points with the property White_Space in the Unicode Character Database (PropList.txt, the same 25 since
    version 6.3). *)
Definition white_space : list Z :=
  [0x9; 0xA; 0xB; 0xC; 0xD; 0x20; 0x85; 0xA0; 0x1680; 0x2000; 0x2001; 0x2002; 0x2003; 0x2004; 0x2005; 0x2006; 0x2007;
   0x2008; 0x2009; 0x200A; 0x2028; 0x2029; 0x202F; 0x205F; 0x3000].
