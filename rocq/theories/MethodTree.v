(** GENERATED by tools/gen_tree.py from /repo/src/sipparser/SipMethodIndex.go:22-247 (GetSipMethodIndex): the Go function body, statement by
    statement, in the syntax of IndexTree.v (byte literals as numbers). Do not edit. *)
From Verif Require Import Base IndexTree.

(** SipMethodIndex.go:5-20 (index constants). *)
Definition SIP_METHOD_UNKNOWN : N := 0.
Definition SIP_METHOD_INVITE : N := 1.
Definition SIP_METHOD_PRACK : N := 2.
Definition SIP_METHOD_UPDATE : N := 3.
Definition SIP_METHOD_INFO : N := 4.
Definition SIP_METHOD_ACK : N := 5.
Definition SIP_METHOD_BYE : N := 6.
Definition SIP_METHOD_REGISTER : N := 7.
Definition SIP_METHOD_SUBSCRIBE : N := 8.
Definition SIP_METHOD_NOTIFY : N := 9.
Definition SIP_METHOD_REFER : N := 10.
Definition SIP_METHOD_OPTIONS : N := 11.
Definition SIP_METHOD_MESSAGE : N := 12.
Definition SIP_METHOD_PUBLISH : N := 13.

(** SipMethodIndex.go:22-247 (GetSipMethodIndex). *)
Definition methodTree : block :=
  (IfEnd 0 0
  >> Switch false (
    Case 65 (* A *) (Inc 1
      >> IfEnd 1 0
      >> IfAll [TX 67; TX 75]
        (Inc 2
        >> IfTerm 5
        >> Bnil)
      >> Ret 0
      >> Bnil) ( 
    Case 66 (* B *) (Inc 1
      >> IfEnd 1 0
      >> IfAll [TX 89; TX 69]
        (Inc 2
        >> IfTerm 6
        >> Bnil)
      >> Ret 0
      >> Bnil) ( 
    Case 73 (* I *) (Inc 1
      >> IfNext (TX 78)
        (Inc 1
        >> Switch false (
          Case 70 (* F *) (Inc 1
            >> IfNext (TX 79)
              (Inc 1
              >> IfTerm 4
              >> Bnil)
            >> Ret 0
            >> Bnil) ( 
          Case 86 (* V *) (Inc 1
            >> IfEnd 2 0
            >> IfAll [TX 73; TX 84; TX 69]
              (Inc 3
              >> IfTerm 1
              >> Bnil)
            >> Ret 0
            >> Bnil) ( Cnil)))
        >> Bnil)
      >> Ret 0
      >> Bnil) ( 
    Case 77 (* M *) (Inc 1
      >> IfEnd 5 0
      >> IfAll [TX 69; TX 83; TX 83; TX 65; TX 71; TX 69]
        (Inc 6
        >> IfTerm 12
        >> Bnil)
      >> Ret 0
      >> Bnil) ( 
    Case 78 (* N *) (Inc 1
      >> IfEnd 4 0
      >> IfAll [TX 79; TX 84; TX 73; TX 70; TX 89]
        (Inc 5
        >> IfTerm 9
        >> Bnil)
      >> Ret 0
      >> Bnil) ( 
    Case 79 (* O *) (Inc 1
      >> IfEnd 5 0
      >> IfAll [TX 80; TX 84; TX 73; TX 79; TX 78; TX 83]
        (Inc 6
        >> IfTerm 11
        >> Bnil)
      >> Ret 0
      >> Bnil) ( 
    Case 80 (* P *) (Inc 1
      >> Switch false (
        Case 82 (* R *) (Inc 1
          >> IfEnd 2 0
          >> IfAll [TX 65; TX 67; TX 75]
            (Inc 3
            >> IfTerm 2
            >> Bnil)
          >> Ret 0
          >> Bnil) ( 
        Case 85 (* U *) (Inc 1
          >> IfEnd 4 0
          >> IfAll [TX 66; TX 76; TX 73; TX 83; TX 72]
            (Inc 5
            >> IfTerm 13
            >> Bnil)
          >> Ret 0
          >> Bnil) ( Cnil)))
      >> Ret 0
      >> Bnil) ( 
    Case 82 (* R *) (Inc 1
      >> IfNext (TX 69)
        (Inc 1
        >> Switch false (
          Case 70 (* F *) (Inc 1
            >> IfEnd 1 0
            >> IfAll [TX 69; TX 82]
              (Inc 2
              >> IfTerm 10
              >> Bnil)
            >> Ret 0
            >> Bnil) ( 
          Case 71 (* G *) (Inc 1
            >> IfEnd 4 0
            >> IfAll [TX 73; TX 83; TX 84; TX 69; TX 82]
              (Inc 5
              >> IfTerm 7
              >> Bnil)
            >> Ret 0
            >> Bnil) ( Cnil)))
        >> Bnil)
      >> Ret 0
      >> Bnil) ( 
    Case 83 (* S *) (Inc 1
      >> IfEnd 7 0
      >> IfAll [TX 85; TX 66; TX 83; TX 67; TX 82; TX 73; TX 66; TX 69]
        (Inc 8
        >> IfTerm 8
        >> Bnil)
      >> Ret 0
      >> Bnil) ( 
    Case 85 (* U *) (Inc 1
      >> IfEnd 4 0
      >> IfAll [TX 80; TX 68; TX 65; TX 84; TX 69]
        (Inc 5
        >> IfTerm 3
        >> Bnil)
      >> Ret 0
      >> Bnil) ( Cnil)))))))))))
  >> Ret 0
  >> Bnil).
