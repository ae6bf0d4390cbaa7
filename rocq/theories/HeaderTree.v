(** GENERATED by tools/gen_tree.py from /repo/src/sipparser/SipHeadersIndex.go:129-2857 (GetSipHeaderIndex): the Go function body, statement by
    statement, in the syntax of IndexTree.v (byte literals as numbers). Do not edit. *)
From Verif Require Import Base IndexTree.

(** SipHeadersIndex.go:5-127 (index constants). *)
Definition SIP_HDR_UNKNOWN : N := 0.
Definition SIP_HDR_ACCEPT : N := 1.
Definition SIP_HDR_ACCEPT_ENCODING : N := 2.
Definition SIP_HDR_ACCEPT_ALNGUAGE : N := 3.
Definition SIP_HDR_ALERT_INFO : N := 4.
Definition SIP_HDR_ALLOW : N := 5.
Definition SIP_HDR_AUTHENTICATION_INFO : N := 6.
Definition SIP_HDR_AUTHORIZATION : N := 7.
Definition SIP_HDR_CALL_ID : N := 8.
Definition SIP_HDR_CALL_INFO : N := 9.
Definition SIP_HDR_CONTACT : N := 10.
Definition SIP_HDR_CONTENT_DISPOSITION : N := 11.
Definition SIP_HDR_CONTENT_ENCODING : N := 12.
Definition SIP_HDR_CONTENT_LANGUAGE : N := 13.
Definition SIP_HDR_CONTENT_LENGTH : N := 14.
Definition SIP_HDR_CONTENT_TYPE : N := 15.
Definition SIP_HDR_CSEQ : N := 16.
Definition SIP_HDR_DATE : N := 17.
Definition SIP_HDR_ERROR_INFO : N := 18.
Definition SIP_HDR_EXPIRES : N := 19.
Definition SIP_HDR_FROM : N := 20.
Definition SIP_HDR_IN_REPLY_TO : N := 21.
Definition SIP_HDR_MAX_FORWARDS : N := 22.
Definition SIP_HDR_MIN_EXPIRES : N := 23.
Definition SIP_HDR_MIME_VERSION : N := 24.
Definition SIP_HDR_ORGANIZATION : N := 25.
Definition SIP_HDR_PRIORITY : N := 26.
Definition SIP_HDR_PROXY_AUTHENTICATE : N := 27.
Definition SIP_HDR_PROXY_AUTHORIZATION : N := 28.
Definition SIP_HDR_PROXY_REQUIRE : N := 29.
Definition SIP_HDR_RECORD_ROUTE : N := 30.
Definition SIP_HDR_REPLY_TO : N := 31.
Definition SIP_HDR_REQUIRE : N := 32.
Definition SIP_HDR_RETRY_AFTER : N := 33.
Definition SIP_HDR_ROUTE : N := 34.
Definition SIP_HDR_SERVER : N := 35.
Definition SIP_HDR_SUBJECT : N := 36.
Definition SIP_HDR_SUPPORTED : N := 37.
Definition SIP_HDR_TIMESTAMP : N := 38.
Definition SIP_HDR_TO : N := 39.
Definition SIP_HDR_UNSUPPORTED : N := 40.
Definition SIP_HDR_USER_AGENT : N := 41.
Definition SIP_HDR_VIA : N := 42.
Definition SIP_HDR_WARNING : N := 43.
Definition SIP_HDR_WWW_AUTHENTICATE : N := 44.
Definition SIP_HDR_RSEQ : N := 45.
Definition SIP_HDR_RACK : N := 46.
Definition SIP_HDR_SUBSCRIPTION_STATE : N := 47.
Definition SIP_HDR_ALLOW_EVENTS : N := 48.
Definition SIP_HDR_EVENT : N := 49.
Definition SIP_HDR_P_MEDIA_AUTHORIZATION : N := 50.
Definition SIP_HDR_PRIVACY : N := 51.
Definition SIP_HDR_P_ASSERTED_IDENTITY : N := 52.
Definition SIP_HDR_P_PREFERRED_IDENTITY : N := 53.
Definition SIP_HDR_REASON : N := 54.
Definition SIP_HDR_PATH : N := 55.
Definition SIP_HDR_SECURITY_CLIENT : N := 56.
Definition SIP_HDR_SECURITY_SERVER : N := 57.
Definition SIP_HDR_SECURITY_VERIFY : N := 58.
Definition SIP_HDR_P_ASSOCIATED_URI : N := 59.
Definition SIP_HDR_P_CALLED_PARTY_ID : N := 60.
Definition SIP_HDR_P_VISITED_NETWORK_ID : N := 61.
Definition SIP_HDR_P_ACCESS_NETWORK_INFO : N := 62.
Definition SIP_HDR_P_CHARGING_FUNCTION_ADDRESSES : N := 63.
Definition SIP_HDR_P_CHARGING_VECTOR : N := 64.
Definition SIP_HDR_REFER_TO : N := 65.
Definition SIP_HDR_P_DCS_TRACE_PARTY_ID : N := 66.
Definition SIP_HDR_P_DCS_OSPS : N := 67.
Definition SIP_HDR_P_DCS_BILLING_INFO : N := 68.
Definition SIP_HDR_P_DCS_LAES : N := 69.
Definition SIP_HDR_DCS_REDIRECT : N := 70.
Definition SIP_HDR_SERVICE_ROUTE : N := 71.
Definition SIP_HDR_ACCEPT_CONTACT : N := 72.
Definition SIP_HDR_REJECT_CONTACT : N := 73.
Definition SIP_HDR_REQUEST_DISPOSITION : N := 74.
Definition SIP_HDR_REPLACES : N := 75.
Definition SIP_HDR_REFERRED_BY : N := 76.
Definition SIP_HDR_SIP_ETAG : N := 77.
Definition SIP_SIP_IF_MATCH : N := 78.
Definition SIP_HDR_JOIN : N := 79.
Definition SIP_HDR_CONTENT_TRANSFER_ENCODING : N := 80.
Definition SIP_HDR_CONTENT_ID : N := 81.
Definition SIP_HDR_CONTENT_DESCRIPTION : N := 82.
Definition SIP_HDR_SESSION_EXPIRES : N := 83.
Definition SIP_HDR_MIN_SE : N := 84.
Definition SIP_HDR_HISTORY_INFO : N := 85.
Definition SIP_HDR_RESOURCE_PRIORITY : N := 86.
Definition SIP_HDR_ACCEPT_RESOURCE_PRIORITY : N := 87.
Definition SIP_HDR_P_USER_DATABASE : N := 88.
Definition SIP_HDR_IDENTITY : N := 89.
Definition SIP_HDR_IDENTITY_INFO : N := 90.
Definition SIP_HDR_REFER_SUB : N := 91.
Definition SIP_HDR_TARGET_DIALOG : N := 92.
Definition SIP_HDR_P_ANSWER_STATE : N := 93.
Definition SIP_HDR_P_PROFILE_KEY : N := 94.
Definition SIP_HDR_P_EARLY_MEDIA : N := 95.
Definition SIP_HDR_P_REFUSED_URI_LIST : N := 96.
Definition SIP_HDR_PERMISSION_MISSING : N := 97.
Definition SIP_HDR_TRIGGER_CONSENT : N := 98.
Definition SIP_HDR_ANSWER_MODE : N := 99.
Definition SIP_HDR_PRIV_ANSWER_MODE : N := 100.
Definition SIP_HDR_MAX_BREADTH : N := 101.
Definition SIP_HDR_P_SERVED_USER : N := 102.
Definition SIP_HDR_FLOW_TIMER : N := 103.
Definition SIP_HDR_SUPPRESS_IF_MATCH : N := 104.
Definition SIP_HDR_DIVERSION : N := 105.
Definition SIP_HDR_P_ASSERTED_SERVICE : N := 106.
Definition SIP_HDR_P_PREFERRED_SERVICE : N := 107.
Definition SIP_HDR_INFO_PACKAGE : N := 108.
Definition SIP_HDR_RECV_INFO : N := 109.
Definition SIP_HDR_GEOLOCATION : N := 110.
Definition SIP_HDR_GEOLOCATION_ROUTING : N := 111.
Definition SIP_HDR_GEOLOCATION_ERROR : N := 112.
Definition SIP_HDR_POLICY_ID : N := 113.
Definition SIP_HDR_POLICY_CONTACT : N := 114.
Definition SIP_HDR_FEATURE_CAPS : N := 115.
Definition SIP_HDR_P_PRIVATE_NETWORK_INDICATION : N := 116.
Definition SIP_HDR_SESSION_ID : N := 117.
Definition SIP_HDR_USER_TO_USER : N := 118.
Definition SIP_HDR_Refer_Events_At : N := 119.
Definition SIP_HDR_MAX_NUM : N := 120.

(** SipHeadersIndex.go:129-2857 (GetSipHeaderIndex). *)
Definition headerTree : block :=
  (IfEnd 0 0
  >> Switch true (
    Case 97 (* a *) (Inc 1
      >> IfTerm 72
      >> Switch true (
        Case 99 (* c *) (Inc 1
          >> IfNext (TL 99)
            (Inc 1
            >> Switch true (
              Case 101 (* e *) (Inc 1
                >> IfNext (TL 112)
                  (Inc 1
                  >> IfNext (TL 116)
                    (Inc 1
                    >> IfNext (TX 45)
                      (Inc 1
                      >> Switch true (
                        Case 99 (* c *) (Inc 1
                          >> IfEnd 5 0
                          >> IfAll [TL 111; TL 110; TL 116; TL 97; TL 99; TL 116]
                            (Inc 6
                            >> IfTerm 72
                            >> Bnil)
                          >> Ret 0
                          >> Bnil) ( 
                        Case 114 (* r *) (Inc 1
                          >> IfEnd 15 0
                          >> IfAll [TL 101; TL 115; TL 111; TL 117; TL 114; TL 99; TL 101; TX 45; TL 112; TL 114; TL 105; TL 111; TL 114; TL 105; TL 116; TL 121]
                            (Inc 16
                            >> IfTerm 87
                            >> Bnil)
                          >> Ret 0
                          >> Bnil) ( Cnil)))
                      >> Bnil)
                    >> Bnil)
                  >> Bnil)
                >> Ret 0
                >> Bnil) ( 
              Case 112 (* p *) (Inc 1
                >> IfNext (TL 101)
                  (Inc 1
                  >> IfNext (TL 116)
                    (Inc 1
                    >> IfTerm 1
                    >> IfNext (TX 45)
                      (Inc 1
                      >> Switch true (
                        Case 101 (* e *) (Inc 1
                          >> IfEnd 6 0
                          >> IfAll [TL 110; TL 99; TL 111; TL 100; TL 105; TL 110; TL 103]
                            (Inc 7
                            >> IfTerm 2
                            >> Bnil)
                          >> Ret 0
                          >> Bnil) ( 
                        Case 108 (* l *) (Inc 1
                          >> IfEnd 6 0
                          >> IfAll [TL 97; TL 110; TL 103; TL 117; TL 97; TL 103; TL 101]
                            (Inc 7
                            >> IfTerm 3
                            >> Bnil)
                          >> Ret 0
                          >> Bnil) ( Cnil)))
                      >> Bnil)
                    >> Bnil)
                  >> Bnil)
                >> Ret 0
                >> Bnil) ( Cnil)))
            >> Bnil)
          >> Ret 0
          >> Bnil) ( 
        Case 108 (* l *) (Inc 1
          >> Switch true (
            Case 101 (* e *) (Inc 1
              >> IfEnd 6 0
              >> IfAll [TL 114; TL 116; TX 45; TL 105; TL 110; TL 102; TL 111]
                (Inc 7
                >> IfTerm 4
                >> Bnil)
              >> Ret 0
              >> Bnil) ( 
            Case 108 (* l *) (Inc 1
              >> IfNext (TL 111)
                (Inc 1
                >> IfNext (TL 119)
                  (Inc 1
                  >> IfTerm 5
                  >> IfEnd 6 0
                  >> IfAll [TX 45; TL 101; TL 118; TL 101; TL 110; TL 116; TL 115]
                    (Inc 7
                    >> IfTerm 48
                    >> Bnil)
                  >> Bnil)
                >> Bnil)
              >> Ret 0
              >> Bnil) ( Cnil)))
          >> Ret 0
          >> Bnil) ( 
        Case 110 (* n *) (Inc 1
          >> IfEnd 8 0
          >> IfAll [TL 115; TL 119; TL 101; TL 114; TX 45; TL 109; TL 111; TL 100; TL 101]
            (Inc 9
            >> IfTerm 99
            >> Bnil)
          >> Ret 0
          >> Bnil) ( 
        Case 117 (* u *) (Inc 1
          >> IfNext (TL 116)
            (Inc 1
            >> IfNext (TL 104)
              (Inc 1
              >> Switch true (
                Case 101 (* e *) (Inc 1
                  >> IfEnd 13 0
                  >> IfAll [TL 110; TL 116; TL 105; TL 99; TL 97; TL 116; TL 105; TL 111; TL 110; TX 45; TL 105; TL 110; TL 102; TL 111]
                    (Inc 14
                    >> IfTerm 6
                    >> Bnil)
                  >> Ret 0
                  >> Bnil) ( 
                Case 111 (* o *) (Inc 1
                  >> IfEnd 7 0
                  >> IfAll [TL 114; TL 105; TL 122; TL 97; TL 116; TL 105; TL 111; TL 110]
                    (Inc 8
                    >> IfTerm 7
                    >> Bnil)
                  >> Ret 0
                  >> Bnil) ( Cnil)))
              >> Bnil)
            >> Bnil)
          >> Ret 0
          >> Bnil) ( Cnil)))))
      >> Ret 0
      >> Bnil) ( 
    Case 98 (* b *) (Inc 1
      >> IfTerm 76
      >> Ret 0
      >> Bnil) ( 
    Case 99 (* c *) (Inc 1
      >> IfTerm 15
      >> Switch true (
        Case 97 (* a *) (Inc 1
          >> IfNext (TL 108)
            (Inc 1
            >> IfNext (TL 108)
              (Inc 1
              >> IfNext (TX 45)
                (Inc 1
                >> IfNext (TL 105)
                  (Inc 1
                  >> Switch true (
                    Case 100 (* d *) (Inc 1
                      >> IfTerm 8
                      >> Ret 0
                      >> Bnil) ( 
                    Case 110 (* n *) (Inc 1
                      >> IfEnd 1 0
                      >> IfAll [TL 102; TL 111]
                        (Inc 2
                        >> IfTerm 9
                        >> Bnil)
                      >> Ret 0
                      >> Bnil) ( Cnil)))
                  >> Bnil)
                >> Bnil)
              >> Bnil)
            >> Bnil)
          >> Ret 0
          >> Bnil) ( 
        Case 111 (* o *) (Inc 1
          >> IfNext (TL 110)
            (Inc 1
            >> IfNext (TL 116)
              (Inc 1
              >> Switch true (
                Case 97 (* a *) (Inc 1
                  >> IfEnd 1 0
                  >> IfAll [TL 99; TL 116]
                    (Inc 2
                    >> IfTerm 10
                    >> Bnil)
                  >> Ret 0
                  >> Bnil) ( 
                Case 101 (* e *) (Inc 1
                  >> IfNext (TL 110)
                    (Inc 1
                    >> IfNext (TL 116)
                      (Inc 1
                      >> IfNext (TX 45)
                        (Inc 1
                        >> Switch true (
                          Case 100 (* d *) (Inc 1
                            >> Switch true (
                              Case 101 (* e *) (Inc 1
                                >> IfEnd 8 0
                                >> IfAll [TL 115; TL 99; TL 114; TL 105; TL 112; TL 116; TL 105; TL 111; TL 110]
                                  (Inc 9
                                  >> IfTerm 82
                                  >> Bnil)
                                >> Ret 0
                                >> Bnil) ( 
                              Case 105 (* i *) (Inc 1
                                >> IfEnd 8 0
                                >> IfAll [TL 115; TL 112; TL 111; TL 115; TL 105; TL 116; TL 105; TL 111; TL 110]
                                  (Inc 9
                                  >> IfTerm 11
                                  >> Bnil)
                                >> Ret 0
                                >> Bnil) ( Cnil)))
                            >> Ret 0
                            >> Bnil) ( 
                          Case 101 (* e *) (Inc 1
                            >> IfEnd 6 0
                            >> IfAll [TL 110; TL 99; TL 111; TL 100; TL 105; TL 110; TL 103]
                              (Inc 7
                              >> IfTerm 12
                              >> Bnil)
                            >> Ret 0
                            >> Bnil) ( 
                          Case 105 (* i *) (Inc 1
                            >> IfNext (TL 100)
                              (Inc 1
                              >> IfTerm 81
                              >> Bnil)
                            >> Ret 0
                            >> Bnil) ( 
                          Case 108 (* l *) (Inc 1
                            >> Switch true (
                              Case 97 (* a *) (Inc 1
                                >> IfEnd 5 0
                                >> IfAll [TL 110; TL 103; TL 117; TL 97; TL 103; TL 101]
                                  (Inc 6
                                  >> IfTerm 13
                                  >> Bnil)
                                >> Ret 0
                                >> Bnil) ( 
                              Case 101 (* e *) (Inc 1
                                >> IfEnd 3 0
                                >> IfAll [TL 110; TL 103; TL 116; TL 104]
                                  (Inc 4
                                  >> IfTerm 14
                                  >> Bnil)
                                >> Ret 0
                                >> Bnil) ( Cnil)))
                            >> Ret 0
                            >> Bnil) ( 
                          Case 116 (* t *) (Inc 1
                            >> Switch true (
                              Case 114 (* r *) (Inc 1
                                >> IfEnd 14 0
                                >> IfAll [TL 97; TL 110; TL 115; TL 102; TL 101; TL 114; TX 45; TL 101; TL 110; TL 99; TL 111; TL 100; TL 105; TL 110; TL 103]
                                  (Inc 15
                                  >> IfTerm 80
                                  >> Bnil)
                                >> Ret 0
                                >> Bnil) ( 
                              Case 121 (* y *) (Inc 1
                                >> IfEnd 1 0
                                >> IfAll [TL 112; TL 101]
                                  (Inc 2
                                  >> IfTerm 15
                                  >> Bnil)
                                >> Ret 0
                                >> Bnil) ( Cnil)))
                            >> Ret 0
                            >> Bnil) ( Cnil))))))
                        >> Bnil)
                      >> Bnil)
                    >> Bnil)
                  >> Ret 0
                  >> Bnil) ( Cnil)))
              >> Bnil)
            >> Bnil)
          >> Ret 0
          >> Bnil) ( 
        Case 115 (* s *) (Inc 1
          >> IfEnd 1 0
          >> IfAll [TL 101; TL 113]
            (Inc 2
            >> IfTerm 16
            >> Bnil)
          >> Ret 0
          >> Bnil) ( Cnil))))
      >> Ret 0
      >> Bnil) ( 
    Case 100 (* d *) (Inc 1
      >> Switch true (
        Case 97 (* a *) (Inc 1
          >> IfEnd 1 0
          >> IfAll [TL 116; TL 101]
            (Inc 2
            >> IfTerm 17
            >> Bnil)
          >> Ret 0
          >> Bnil) ( 
        Case 105 (* i *) (Inc 1
          >> IfEnd 6 0
          >> IfAll [TL 118; TL 101; TL 114; TL 115; TL 105; TL 111; TL 110]
            (Inc 7
            >> IfTerm 105
            >> Bnil)
          >> Ret 0
          >> Bnil) ( Cnil)))
      >> Ret 0
      >> Bnil) ( 
    Case 101 (* e *) (Inc 1
      >> IfTerm 12
      >> Switch true (
        Case 114 (* r *) (Inc 1
          >> IfEnd 7 0
          >> IfAll [TL 114; TL 111; TL 114; TX 45; TL 105; TL 110; TL 102; TL 111]
            (Inc 8
            >> IfTerm 18
            >> Bnil)
          >> Ret 0
          >> Bnil) ( 
        Case 118 (* v *) (Inc 1
          >> IfEnd 2 0
          >> IfAll [TL 101; TL 110; TL 116]
            (Inc 3
            >> IfTerm 49
            >> Bnil)
          >> Ret 0
          >> Bnil) ( 
        Case 120 (* x *) (Inc 1
          >> IfEnd 4 0
          >> IfAll [TL 112; TL 105; TL 114; TL 101; TL 115]
            (Inc 5
            >> IfTerm 19
            >> Bnil)
          >> Ret 0
          >> Bnil) ( Cnil))))
      >> Ret 0
      >> Bnil) ( 
    Case 102 (* f *) (Inc 1
      >> IfTerm 20
      >> Switch true (
        Case 101 (* e *) (Inc 1
          >> IfEnd 9 0
          >> IfAll [TL 97; TL 116; TL 117; TL 114; TL 101; TX 45; TL 99; TL 97; TL 112; TL 115]
            (Inc 10
            >> IfTerm 115
            >> Bnil)
          >> Ret 0
          >> Bnil) ( 
        Case 108 (* l *) (Inc 1
          >> IfEnd 7 0
          >> IfAll [TL 111; TL 119; TX 45; TL 116; TL 105; TL 109; TL 101; TL 114]
            (Inc 8
            >> IfTerm 103
            >> Bnil)
          >> Ret 0
          >> Bnil) ( 
        Case 114 (* r *) (Inc 1
          >> IfEnd 1 0
          >> IfAll [TL 111; TL 109]
            (Inc 2
            >> IfTerm 20
            >> Bnil)
          >> Ret 0
          >> Bnil) ( Cnil))))
      >> Ret 0
      >> Bnil) ( 
    Case 103 (* g *) (Inc 1
      >> IfNext (TL 101)
        (Inc 1
        >> IfNext (TL 111)
          (Inc 1
          >> IfNext (TL 108)
            (Inc 1
            >> IfNext (TL 111)
              (Inc 1
              >> IfNext (TL 99)
                (Inc 1
                >> IfNext (TL 97)
                  (Inc 1
                  >> IfNext (TL 116)
                    (Inc 1
                    >> IfNext (TL 105)
                      (Inc 1
                      >> IfNext (TL 111)
                        (Inc 1
                        >> IfNext (TL 110)
                          (Inc 1
                          >> IfTerm 110
                          >> IfNext (TX 45)
                            (Inc 1
                            >> Switch true (
                              Case 101 (* e *) (Inc 1
                                >> IfEnd 3 0
                                >> IfAll [TL 114; TL 114; TL 111; TL 114]
                                  (Inc 4
                                  >> IfTerm 112
                                  >> Bnil)
                                >> Ret 0
                                >> Bnil) ( 
                              Case 114 (* r *) (Inc 1
                                >> IfEnd 5 0
                                >> IfAll [TL 111; TL 117; TL 116; TL 105; TL 110; TL 103]
                                  (Inc 6
                                  >> IfTerm 111
                                  >> Bnil)
                                >> Ret 0
                                >> Bnil) ( Cnil)))
                            >> Bnil)
                          >> Bnil)
                        >> Bnil)
                      >> Bnil)
                    >> Bnil)
                  >> Bnil)
                >> Bnil)
              >> Bnil)
            >> Bnil)
          >> Bnil)
        >> Bnil)
      >> Ret 0
      >> Bnil) ( 
    Case 104 (* h *) (Inc 1
      >> IfEnd 10 0
      >> IfAll [TL 105; TL 115; TL 116; TL 111; TL 114; TL 121; TX 45; TL 105; TL 110; TL 102; TL 111]
        (Inc 11
        >> IfTerm 85
        >> Bnil)
      >> Ret 0
      >> Bnil) ( 
    Case 105 (* i *) (Inc 1
      >> IfTerm 8
      >> Switch true (
        Case 100 (* d *) (Inc 1
          >> IfNext (TL 101)
            (Inc 1
            >> IfNext (TL 110)
              (Inc 1
              >> IfNext (TL 116)
                (Inc 1
                >> IfNext (TL 105)
                  (Inc 1
                  >> IfNext (TL 116)
                    (Inc 1
                    >> IfNext (TL 121)
                      (Inc 1
                      >> IfTerm 89
                      >> IfEnd 4 0
                      >> IfAll [TX 45; TL 105; TL 110; TL 102; TL 111]
                        (Inc 5
                        >> IfTerm 90
                        >> Bnil)
                      >> Bnil)
                    >> Bnil)
                  >> Bnil)
                >> Bnil)
              >> Bnil)
            >> Bnil)
          >> Ret 0
          >> Bnil) ( 
        Case 110 (* n *) (Inc 1
          >> Switch true (
            Case 45 (* - *) (Inc 1
              >> IfEnd 7 0
              >> IfAll [TL 114; TL 101; TL 112; TL 108; TL 121; TX 45; TL 116; TL 111]
                (Inc 8
                >> IfTerm 21
                >> Bnil)
              >> Ret 0
              >> Bnil) ( 
            Case 102 (* f *) (Inc 1
              >> IfEnd 8 0
              >> IfAll [TL 111; TX 45; TL 112; TL 97; TL 99; TL 107; TL 97; TL 103; TL 101]
                (Inc 9
                >> IfTerm 108
                >> Bnil)
              >> Ret 0
              >> Bnil) ( Cnil)))
          >> Ret 0
          >> Bnil) ( Cnil)))
      >> Ret 0
      >> Bnil) ( 
    Case 106 (* j *) (Inc 1
      >> IfTerm 73
      >> IfEnd 2 0
      >> IfAll [TL 111; TL 105; TL 110]
        (Inc 3
        >> IfTerm 79
        >> Bnil)
      >> Ret 0
      >> Bnil) ( 
    Case 107 (* k *) (Inc 1
      >> IfTerm 37
      >> Ret 0
      >> Bnil) ( 
    Case 108 (* l *) (Inc 1
      >> IfTerm 14
      >> Ret 0
      >> Bnil) ( 
    Case 109 (* m *) (Inc 1
      >> IfTerm 10
      >> Switch true (
        Case 97 (* a *) (Inc 1
          >> IfNext (TL 120)
            (Inc 1
            >> IfNext (TX 45)
              (Inc 1
              >> Switch true (
                Case 98 (* b *) (Inc 1
                  >> IfEnd 5 0
                  >> IfAll [TL 114; TL 101; TL 97; TL 100; TL 116; TL 104]
                    (Inc 6
                    >> IfTerm 101
                    >> Bnil)
                  >> Ret 0
                  >> Bnil) ( 
                Case 102 (* f *) (Inc 1
                  >> IfEnd 6 0
                  >> IfAll [TL 111; TL 114; TL 119; TL 97; TL 114; TL 100; TL 115]
                    (Inc 7
                    >> IfTerm 22
                    >> Bnil)
                  >> Ret 0
                  >> Bnil) ( Cnil)))
              >> Bnil)
            >> Bnil)
          >> Ret 0
          >> Bnil) ( 
        Case 105 (* i *) (Inc 1
          >> Switch true (
            Case 109 (* m *) (Inc 1
              >> IfEnd 8 0
              >> IfAll [TL 101; TX 45; TL 118; TL 101; TL 114; TL 115; TL 105; TL 111; TL 110]
                (Inc 9
                >> IfTerm 24
                >> Bnil)
              >> Ret 0
              >> Bnil) ( 
            Case 110 (* n *) (Inc 1
              >> IfNext (TX 45)
                (Inc 1
                >> Switch true (
                  Case 101 (* e *) (Inc 1
                    >> IfEnd 5 0
                    >> IfAll [TL 120; TL 112; TL 105; TL 114; TL 101; TL 115]
                      (Inc 6
                      >> IfTerm 23
                      >> Bnil)
                    >> Ret 0
                    >> Bnil) ( 
                  Case 115 (* s *) (Inc 1
                    >> IfNext (TL 101)
                      (Inc 1
                      >> IfTerm 84
                      >> Bnil)
                    >> Ret 0
                    >> Bnil) ( Cnil)))
                >> Bnil)
              >> Ret 0
              >> Bnil) ( Cnil)))
          >> Ret 0
          >> Bnil) ( Cnil)))
      >> Ret 0
      >> Bnil) ( 
    Case 111 (* o *) (Inc 1
      >> IfTerm 49
      >> IfEnd 10 0
      >> IfAll [TL 114; TL 103; TL 97; TL 110; TL 105; TL 122; TL 97; TL 116; TL 105; TL 111; TL 110]
        (Inc 11
        >> IfTerm 25
        >> Bnil)
      >> Ret 0
      >> Bnil) ( 
    Case 112 (* p *) (Inc 1
      >> Switch true (
        Case 45 (* - *) (Inc 1
          >> Switch true (
            Case 97 (* a *) (Inc 1
              >> Switch true (
                Case 99 (* c *) (Inc 1
                  >> IfEnd 16 0
                  >> IfAll [TL 99; TL 101; TL 115; TL 115; TX 45; TL 110; TL 101; TL 116; TL 119; TL 111; TL 114; TL 107; TX 45; TL 105; TL 110; TL 102; TL 111]
                    (Inc 17
                    >> IfTerm 62
                    >> Bnil)
                  >> Ret 0
                  >> Bnil) ( 
                Case 110 (* n *) (Inc 1
                  >> IfEnd 9 0
                  >> IfAll [TL 115; TL 119; TL 101; TL 114; TX 45; TL 115; TL 116; TL 97; TL 116; TL 101]
                    (Inc 10
                    >> IfTerm 93
                    >> Bnil)
                  >> Ret 0
                  >> Bnil) ( 
                Case 115 (* s *) (Inc 1
                  >> IfNext (TL 115)
                    (Inc 1
                    >> Switch true (
                      Case 101 (* e *) (Inc 1
                        >> IfNext (TL 114)
                          (Inc 1
                          >> IfNext (TL 116)
                            (Inc 1
                            >> IfNext (TL 101)
                              (Inc 1
                              >> IfNext (TL 100)
                                (Inc 1
                                >> IfNext (TX 45)
                                  (Inc 1
                                  >> Switch true (
                                    Case 105 (* i *) (Inc 1
                                      >> IfEnd 6 0
                                      >> IfAll [TL 100; TL 101; TL 110; TL 116; TL 105; TL 116; TL 121]
                                        (Inc 7
                                        >> IfTerm 52
                                        >> Bnil)
                                      >> Ret 0
                                      >> Bnil) ( 
                                    Case 115 (* s *) (Inc 1
                                      >> IfEnd 5 0
                                      >> IfAll [TL 101; TL 114; TL 118; TL 105; TL 99; TL 101]
                                        (Inc 6
                                        >> IfTerm 106
                                        >> Bnil)
                                      >> Ret 0
                                      >> Bnil) ( Cnil)))
                                  >> Bnil)
                                >> Bnil)
                              >> Bnil)
                            >> Bnil)
                          >> Bnil)
                        >> Ret 0
                        >> Bnil) ( 
                      Case 111 (* o *) (Inc 1
                        >> IfEnd 9 0
                        >> IfAll [TL 99; TL 105; TL 97; TL 116; TL 101; TL 100; TX 45; TL 117; TL 114; TL 105]
                          (Inc 10
                          >> IfTerm 59
                          >> Bnil)
                        >> Ret 0
                        >> Bnil) ( Cnil)))
                    >> Bnil)
                  >> Ret 0
                  >> Bnil) ( Cnil))))
              >> Ret 0
              >> Bnil) ( 
            Case 99 (* c *) (Inc 1
              >> Switch true (
                Case 97 (* a *) (Inc 1
                  >> IfEnd 12 0
                  >> IfAll [TL 108; TL 108; TL 101; TL 100; TX 45; TL 112; TL 97; TL 114; TL 116; TL 121; TX 45; TL 105; TL 100]
                    (Inc 13
                    >> IfTerm 60
                    >> Bnil)
                  >> Ret 0
                  >> Bnil) ( 
                Case 104 (* h *) (Inc 1
                  >> IfNext (TL 97)
                    (Inc 1
                    >> IfNext (TL 114)
                      (Inc 1
                      >> IfNext (TL 103)
                        (Inc 1
                        >> IfNext (TL 105)
                          (Inc 1
                          >> IfNext (TL 110)
                            (Inc 1
                            >> IfNext (TL 103)
                              (Inc 1
                              >> IfNext (TX 45)
                                (Inc 1
                                >> Switch true (
                                  Case 102 (* f *) (Inc 1
                                    >> IfEnd 14 0
                                    >> IfAll [TL 117; TL 110; TL 99; TL 116; TL 105; TL 111; TL 110; TX 45; TL 97; TL 100; TL 100; TL 114; TL 101; TL 115; TL 115]
                                      (Inc 15
                                      >> IfTerm 63
                                      >> Bnil)
                                    >> Ret 0
                                    >> Bnil) ( 
                                  Case 118 (* v *) (Inc 1
                                    >> IfEnd 4 0
                                    >> IfAll [TL 101; TL 99; TL 116; TL 111; TL 114]
                                      (Inc 5
                                      >> IfTerm 64
                                      >> Bnil)
                                    >> Ret 0
                                    >> Bnil) ( Cnil)))
                                >> Bnil)
                              >> Bnil)
                            >> Bnil)
                          >> Bnil)
                        >> Bnil)
                      >> Bnil)
                    >> Bnil)
                  >> Ret 0
                  >> Bnil) ( Cnil)))
              >> Ret 0
              >> Bnil) ( 
            Case 100 (* d *) (Inc 1
              >> IfNext (TL 99)
                (Inc 1
                >> IfNext (TL 115)
                  (Inc 1
                  >> IfNext (TX 45)
                    (Inc 1
                    >> Switch true (
                      Case 98 (* b *) (Inc 1
                        >> IfEnd 10 0
                        >> IfAll [TL 105; TL 108; TL 108; TL 105; TL 110; TL 103; TX 45; TL 105; TL 110; TL 102; TL 111]
                          (Inc 11
                          >> IfTerm 68
                          >> Bnil)
                        >> Ret 0
                        >> Bnil) ( 
                      Case 108 (* l *) (Inc 1
                        >> IfEnd 2 0
                        >> IfAll [TL 97; TL 101; TL 115]
                          (Inc 3
                          >> IfTerm 69
                          >> Bnil)
                        >> Ret 0
                        >> Bnil) ( 
                      Case 111 (* o *) (Inc 1
                        >> IfEnd 2 0
                        >> IfAll [TL 115; TL 112; TL 115]
                          (Inc 3
                          >> IfTerm 67
                          >> Bnil)
                        >> Ret 0
                        >> Bnil) ( 
                      Case 114 (* r *) (Inc 1
                        >> IfEnd 6 0
                        >> IfAll [TL 101; TL 100; TL 105; TL 114; TL 101; TL 99; TL 116]
                          (Inc 7
                          >> IfTerm 70
                          >> Bnil)
                        >> Ret 0
                        >> Bnil) ( 
                      Case 116 (* t *) (Inc 1
                        >> IfEnd 12 0
                        >> IfAll [TL 114; TL 97; TL 99; TL 101; TX 45; TL 112; TL 97; TL 114; TL 116; TL 121; TX 45; TL 105; TL 100]
                          (Inc 13
                          >> IfTerm 66
                          >> Bnil)
                        >> Ret 0
                        >> Bnil) ( Cnil))))))
                    >> Bnil)
                  >> Bnil)
                >> Bnil)
              >> Ret 0
              >> Bnil) ( 
            Case 101 (* e *) (Inc 1
              >> IfEnd 9 0
              >> IfAll [TL 97; TL 114; TL 108; TL 121; TX 45; TL 109; TL 101; TL 100; TL 105; TL 97]
                (Inc 10
                >> IfTerm 95
                >> Bnil)
              >> Ret 0
              >> Bnil) ( 
            Case 109 (* m *) (Inc 1
              >> IfEnd 17 0
              >> IfAll [TL 101; TL 100; TL 105; TL 97; TX 45; TL 97; TL 117; TL 116; TL 104; TL 111; TL 114; TL 105; TL 122; TL 97; TL 116; TL 105; TL 111; TL 110]
                (Inc 18
                >> IfTerm 50
                >> Bnil)
              >> Ret 0
              >> Bnil) ( 
            Case 112 (* p *) (Inc 1
              >> IfNext (TL 114)
                (Inc 1
                >> Switch true (
                  Case 101 (* e *) (Inc 1
                    >> IfNext (TL 102)
                      (Inc 1
                      >> IfNext (TL 101)
                        (Inc 1
                        >> IfNext (TL 114)
                          (Inc 1
                          >> IfNext (TL 114)
                            (Inc 1
                            >> IfNext (TL 101)
                              (Inc 1
                              >> IfNext (TL 100)
                                (Inc 1
                                >> IfNext (TX 45)
                                  (Inc 1
                                  >> Switch true (
                                    Case 105 (* i *) (Inc 1
                                      >> IfEnd 6 0
                                      >> IfAll [TL 100; TL 101; TL 110; TL 116; TL 105; TL 116; TL 121]
                                        (Inc 7
                                        >> IfTerm 53
                                        >> Bnil)
                                      >> Ret 0
                                      >> Bnil) ( 
                                    Case 115 (* s *) (Inc 1
                                      >> IfEnd 5 0
                                      >> IfAll [TL 101; TL 114; TL 118; TL 105; TL 99; TL 101]
                                        (Inc 6
                                        >> IfTerm 107
                                        >> Bnil)
                                      >> Ret 0
                                      >> Bnil) ( Cnil)))
                                  >> Bnil)
                                >> Bnil)
                              >> Bnil)
                            >> Bnil)
                          >> Bnil)
                        >> Bnil)
                      >> Bnil)
                    >> Ret 0
                    >> Bnil) ( 
                  Case 105 (* i *) (Inc 1
                    >> IfEnd 22 0
                    >> IfAll [TL 118; TL 97; TL 116; TL 101; TX 45; TL 110; TL 101; TL 116; TL 119; TL 111; TL 114; TL 107; TX 45; TL 105; TL 110; TL 100; TL 105; TL 99; TL 97; TL 116; TL 105; TL 111; TL 110]
                      (Inc 23
                      >> IfTerm 116
                      >> Bnil)
                    >> Ret 0
                    >> Bnil) ( 
                  Case 111 (* o *) (Inc 1
                    >> IfEnd 7 0
                    >> IfAll [TL 102; TL 105; TL 108; TL 101; TX 45; TL 107; TL 101; TL 121]
                      (Inc 8
                      >> IfTerm 94
                      >> Bnil)
                    >> Ret 0
                    >> Bnil) ( Cnil))))
                >> Bnil)
              >> Ret 0
              >> Bnil) ( 
            Case 114 (* r *) (Inc 1
              >> IfEnd 14 0
              >> IfAll [TL 101; TL 102; TL 117; TL 115; TL 101; TL 100; TX 45; TL 117; TL 114; TL 105; TX 45; TL 108; TL 105; TL 115; TL 116]
                (Inc 15
                >> IfTerm 96
                >> Bnil)
              >> Ret 0
              >> Bnil) ( 
            Case 115 (* s *) (Inc 1
              >> IfEnd 9 0
              >> IfAll [TL 101; TL 114; TL 118; TL 101; TL 100; TX 45; TL 117; TL 115; TL 101; TL 114]
                (Inc 10
                >> IfTerm 102
                >> Bnil)
              >> Ret 0
              >> Bnil) ( 
            Case 117 (* u *) (Inc 1
              >> IfEnd 11 0
              >> IfAll [TL 115; TL 101; TL 114; TX 45; TL 100; TL 97; TL 116; TL 97; TL 98; TL 97; TL 115; TL 101]
                (Inc 12
                >> IfTerm 88
                >> Bnil)
              >> Ret 0
              >> Bnil) ( 
            Case 118 (* v *) (Inc 1
              >> IfEnd 16 0
              >> IfAll [TL 105; TL 115; TL 105; TL 116; TL 101; TL 100; TX 45; TL 110; TL 101; TL 116; TL 119; TL 111; TL 114; TL 107; TX 45; TL 105; TL 100]
                (Inc 17
                >> IfTerm 61
                >> Bnil)
              >> Ret 0
              >> Bnil) ( Cnil)))))))))))
          >> Ret 0
          >> Bnil) ( 
        Case 97 (* a *) (Inc 1
          >> IfEnd 1 0
          >> IfAll [TL 116; TL 104]
            (Inc 2
            >> IfTerm 55
            >> Bnil)
          >> Ret 0
          >> Bnil) ( 
        Case 101 (* e *) (Inc 1
          >> IfEnd 15 0
          >> IfAll [TL 114; TL 109; TL 105; TL 115; TL 115; TL 105; TL 111; TL 110; TX 45; TL 109; TL 105; TL 115; TL 115; TL 105; TL 110; TL 103]
            (Inc 16
            >> IfTerm 97
            >> Bnil)
          >> Ret 0
          >> Bnil) ( 
        Case 111 (* o *) (Inc 1
          >> IfNext (TL 108)
            (Inc 1
            >> IfNext (TL 105)
              (Inc 1
              >> IfNext (TL 99)
                (Inc 1
                >> IfNext (TL 121)
                  (Inc 1
                  >> IfNext (TX 45)
                    (Inc 1
                    >> Switch true (
                      Case 99 (* c *) (Inc 1
                        >> IfEnd 5 0
                        >> IfAll [TL 111; TL 110; TL 116; TL 97; TL 99; TL 116]
                          (Inc 6
                          >> IfTerm 114
                          >> Bnil)
                        >> Ret 0
                        >> Bnil) ( 
                      Case 105 (* i *) (Inc 1
                        >> IfNext (TL 100)
                          (Inc 1
                          >> IfTerm 113
                          >> Bnil)
                        >> Ret 0
                        >> Bnil) ( Cnil)))
                    >> Bnil)
                  >> Bnil)
                >> Bnil)
              >> Bnil)
            >> Bnil)
          >> Ret 0
          >> Bnil) ( 
        Case 114 (* r *) (Inc 1
          >> Switch true (
            Case 105 (* i *) (Inc 1
              >> Switch true (
                Case 111 (* o *) (Inc 1
                  >> IfEnd 3 0
                  >> IfAll [TL 114; TL 105; TL 116; TL 121]
                    (Inc 4
                    >> IfTerm 26
                    >> Bnil)
                  >> Ret 0
                  >> Bnil) ( 
                Case 118 (* v *) (Inc 1
                  >> Switch true (
                    Case 45 (* - *) (Inc 1
                      >> IfEnd 10 0
                      >> IfAll [TL 97; TL 110; TL 115; TL 119; TL 101; TL 114; TX 45; TL 109; TL 111; TL 100; TL 101]
                        (Inc 11
                        >> IfTerm 100
                        >> Bnil)
                      >> Ret 0
                      >> Bnil) ( 
                    Case 97 (* a *) (Inc 1
                      >> IfEnd 1 0
                      >> IfAll [TL 99; TL 121]
                        (Inc 2
                        >> IfTerm 51
                        >> Bnil)
                      >> Ret 0
                      >> Bnil) ( Cnil)))
                  >> Ret 0
                  >> Bnil) ( Cnil)))
              >> Ret 0
              >> Bnil) ( 
            Case 111 (* o *) (Inc 1
              >> IfNext (TL 120)
                (Inc 1
                >> IfNext (TL 121)
                  (Inc 1
                  >> IfNext (TX 45)
                    (Inc 1
                    >> Switch true (
                      Case 97 (* a *) (Inc 1
                        >> IfNext (TL 117)
                          (Inc 1
                          >> IfNext (TL 116)
                            (Inc 1
                            >> IfNext (TL 104)
                              (Inc 1
                              >> Switch true (
                                Case 101 (* e *) (Inc 1
                                  >> IfEnd 6 0
                                  >> IfAll [TL 110; TL 116; TL 105; TL 99; TL 97; TL 116; TL 101]
                                    (Inc 7
                                    >> IfTerm 27
                                    >> Bnil)
                                  >> Ret 0
                                  >> Bnil) ( 
                                Case 111 (* o *) (Inc 1
                                  >> IfEnd 7 0
                                  >> IfAll [TL 114; TL 105; TL 122; TL 97; TL 116; TL 105; TL 111; TL 110]
                                    (Inc 8
                                    >> IfTerm 28
                                    >> Bnil)
                                  >> Ret 0
                                  >> Bnil) ( Cnil)))
                              >> Bnil)
                            >> Bnil)
                          >> Bnil)
                        >> Ret 0
                        >> Bnil) ( 
                      Case 114 (* r *) (Inc 1
                        >> IfEnd 5 0
                        >> IfAll [TL 101; TL 113; TL 117; TL 105; TL 114; TL 101]
                          (Inc 6
                          >> IfTerm 29
                          >> Bnil)
                        >> Ret 0
                        >> Bnil) ( Cnil)))
                    >> Bnil)
                  >> Bnil)
                >> Bnil)
              >> Ret 0
              >> Bnil) ( Cnil)))
          >> Ret 0
          >> Bnil) ( Cnil))))))
      >> Ret 0
      >> Bnil) ( 
    Case 114 (* r *) (Inc 1
      >> IfTerm 65
      >> Switch true (
        Case 97 (* a *) (Inc 1
          >> IfEnd 1 0
          >> IfAll [TL 99; TL 107]
            (Inc 2
            >> IfTerm 46
            >> Bnil)
          >> Ret 0
          >> Bnil) ( 
        Case 101 (* e *) (Inc 1
          >> Switch true (
            Case 97 (* a *) (Inc 1
              >> IfEnd 2 0
              >> IfAll [TL 115; TL 111; TL 110]
                (Inc 3
                >> IfTerm 54
                >> Bnil)
              >> Ret 0
              >> Bnil) ( 
            Case 99 (* c *) (Inc 1
              >> Switch true (
                Case 111 (* o *) (Inc 1
                  >> IfEnd 7 0
                  >> IfAll [TL 114; TL 100; TX 45; TL 114; TL 111; TL 117; TL 116; TL 101]
                    (Inc 8
                    >> IfTerm 30
                    >> Bnil)
                  >> Ret 0
                  >> Bnil) ( 
                Case 118 (* v *) (Inc 1
                  >> IfEnd 4 0
                  >> IfAll [TX 45; TL 105; TL 110; TL 102; TL 111]
                    (Inc 5
                    >> IfTerm 109
                    >> Bnil)
                  >> Ret 0
                  >> Bnil) ( Cnil)))
              >> Ret 0
              >> Bnil) ( 
            Case 102 (* f *) (Inc 1
              >> IfNext (TL 101)
                (Inc 1
                >> IfNext (TL 114)
                  (Inc 1
                  >> Switch true (
                    Case 45 (* - *) (Inc 1
                      >> Switch true (
                        Case 101 (* e *) (Inc 1
                          >> IfEnd 7 0
                          >> IfAll [TL 118; TL 101; TL 110; TL 116; TL 115; TX 45; TL 97; TL 116]
                            (Inc 8
                            >> IfTerm 119
                            >> Bnil)
                          >> Ret 0
                          >> Bnil) ( 
                        Case 115 (* s *) (Inc 1
                          >> IfEnd 1 0
                          >> IfAll [TL 117; TL 98]
                            (Inc 2
                            >> IfTerm 91
                            >> Bnil)
                          >> Ret 0
                          >> Bnil) ( 
                        Case 116 (* t *) (Inc 1
                          >> IfNext (TL 111)
                            (Inc 1
                            >> IfTerm 65
                            >> Bnil)
                          >> Ret 0
                          >> Bnil) ( Cnil))))
                      >> Ret 0
                      >> Bnil) ( 
                    Case 114 (* r *) (Inc 1
                      >> IfEnd 4 0
                      >> IfAll [TL 101; TL 100; TX 45; TL 98; TL 121]
                        (Inc 5
                        >> IfTerm 76
                        >> Bnil)
                      >> Ret 0
                      >> Bnil) ( Cnil)))
                  >> Bnil)
                >> Bnil)
              >> Ret 0
              >> Bnil) ( 
            Case 106 (* j *) (Inc 1
              >> IfEnd 10 0
              >> IfAll [TL 101; TL 99; TL 116; TX 45; TL 99; TL 111; TL 110; TL 116; TL 97; TL 99; TL 116]
                (Inc 11
                >> IfTerm 73
                >> Bnil)
              >> Ret 0
              >> Bnil) ( 
            Case 112 (* p *) (Inc 1
              >> IfNext (TL 108)
                (Inc 1
                >> Switch true (
                  Case 97 (* a *) (Inc 1
                    >> IfEnd 2 0
                    >> IfAll [TL 99; TL 101; TL 115]
                      (Inc 3
                      >> IfTerm 75
                      >> Bnil)
                    >> Ret 0
                    >> Bnil) ( 
                  Case 121 (* y *) (Inc 1
                    >> IfEnd 2 0
                    >> IfAll [TX 45; TL 116; TL 111]
                      (Inc 3
                      >> IfTerm 31
                      >> Bnil)
                    >> Ret 0
                    >> Bnil) ( Cnil)))
                >> Bnil)
              >> Ret 0
              >> Bnil) ( 
            Case 113 (* q *) (Inc 1
              >> IfNext (TL 117)
                (Inc 1
                >> Switch true (
                  Case 101 (* e *) (Inc 1
                    >> IfEnd 13 0
                    >> IfAll [TL 115; TL 116; TX 45; TL 100; TL 105; TL 115; TL 112; TL 111; TL 115; TL 105; TL 116; TL 105; TL 111; TL 110]
                      (Inc 14
                      >> IfTerm 74
                      >> Bnil)
                    >> Ret 0
                    >> Bnil) ( 
                  Case 105 (* i *) (Inc 1
                    >> IfEnd 1 0
                    >> IfAll [TL 114; TL 101]
                      (Inc 2
                      >> IfTerm 32
                      >> Bnil)
                    >> Ret 0
                    >> Bnil) ( Cnil)))
                >> Bnil)
              >> Ret 0
              >> Bnil) ( 
            Case 115 (* s *) (Inc 1
              >> IfEnd 13 0
              >> IfAll [TL 111; TL 117; TL 114; TL 99; TL 101; TX 45; TL 112; TL 114; TL 105; TL 111; TL 114; TL 105; TL 116; TL 121]
                (Inc 14
                >> IfTerm 86
                >> Bnil)
              >> Ret 0
              >> Bnil) ( 
            Case 116 (* t *) (Inc 1
              >> IfEnd 7 0
              >> IfAll [TL 114; TL 121; TX 45; TL 97; TL 102; TL 116; TL 101; TL 114]
                (Inc 8
                >> IfTerm 33
                >> Bnil)
              >> Ret 0
              >> Bnil) ( Cnil)))))))))
          >> Ret 0
          >> Bnil) ( 
        Case 111 (* o *) (Inc 1
          >> IfEnd 2 0
          >> IfAll [TL 117; TL 116; TL 101]
            (Inc 3
            >> IfTerm 34
            >> Bnil)
          >> Ret 0
          >> Bnil) ( 
        Case 115 (* s *) (Inc 1
          >> IfEnd 1 0
          >> IfAll [TL 101; TL 113]
            (Inc 2
            >> IfTerm 45
            >> Bnil)
          >> Ret 0
          >> Bnil) ( Cnil)))))
      >> Ret 0
      >> Bnil) ( 
    Case 115 (* s *) (Inc 1
      >> IfTerm 36
      >> Switch true (
        Case 101 (* e *) (Inc 1
          >> Switch true (
            Case 99 (* c *) (Inc 1
              >> IfNext (TL 117)
                (Inc 1
                >> IfNext (TL 114)
                  (Inc 1
                  >> IfNext (TL 105)
                    (Inc 1
                    >> IfNext (TL 116)
                      (Inc 1
                      >> IfNext (TL 121)
                        (Inc 1
                        >> IfNext (TX 45)
                          (Inc 1
                          >> Switch true (
                            Case 99 (* c *) (Inc 1
                              >> IfEnd 4 0
                              >> IfAll [TL 108; TL 105; TL 101; TL 110; TL 116]
                                (Inc 5
                                >> IfTerm 56
                                >> Bnil)
                              >> Ret 0
                              >> Bnil) ( 
                            Case 115 (* s *) (Inc 1
                              >> IfEnd 4 0
                              >> IfAll [TL 101; TL 114; TL 118; TL 101; TL 114]
                                (Inc 5
                                >> IfTerm 57
                                >> Bnil)
                              >> Ret 0
                              >> Bnil) ( 
                            Case 118 (* v *) (Inc 1
                              >> IfEnd 4 0
                              >> IfAll [TL 101; TL 114; TL 105; TL 102; TL 121]
                                (Inc 5
                                >> IfTerm 58
                                >> Bnil)
                              >> Ret 0
                              >> Bnil) ( Cnil))))
                          >> Bnil)
                        >> Bnil)
                      >> Bnil)
                    >> Bnil)
                  >> Bnil)
                >> Bnil)
              >> Ret 0
              >> Bnil) ( 
            Case 114 (* r *) (Inc 1
              >> IfNext (TL 118)
                (Inc 1
                >> Switch true (
                  Case 101 (* e *) (Inc 1
                    >> IfNext (TL 114)
                      (Inc 1
                      >> IfTerm 35
                      >> Bnil)
                    >> Ret 0
                    >> Bnil) ( 
                  Case 105 (* i *) (Inc 1
                    >> IfEnd 7 0
                    >> IfAll [TL 99; TL 101; TX 45; TL 114; TL 111; TL 117; TL 116; TL 101]
                      (Inc 8
                      >> IfTerm 71
                      >> Bnil)
                    >> Ret 0
                    >> Bnil) ( Cnil)))
                >> Bnil)
              >> Ret 0
              >> Bnil) ( 
            Case 115 (* s *) (Inc 1
              >> IfNext (TL 115)
                (Inc 1
                >> IfNext (TL 105)
                  (Inc 1
                  >> IfNext (TL 111)
                    (Inc 1
                    >> IfNext (TL 110)
                      (Inc 1
                      >> IfNext (TX 45)
                        (Inc 1
                        >> Switch true (
                          Case 101 (* e *) (Inc 1
                            >> IfEnd 5 0
                            >> IfAll [TL 120; TL 112; TL 105; TL 114; TL 101; TL 115]
                              (Inc 6
                              >> IfTerm 83
                              >> Bnil)
                            >> Ret 0
                            >> Bnil) ( 
                          Case 105 (* i *) (Inc 1
                            >> IfNext (TL 100)
                              (Inc 1
                              >> IfTerm 117
                              >> Bnil)
                            >> Ret 0
                            >> Bnil) ( Cnil)))
                        >> Bnil)
                      >> Bnil)
                    >> Bnil)
                  >> Bnil)
                >> Bnil)
              >> Ret 0
              >> Bnil) ( Cnil))))
          >> Ret 0
          >> Bnil) ( 
        Case 105 (* i *) (Inc 1
          >> IfNext (TL 112)
            (Inc 1
            >> IfNext (TX 45)
              (Inc 1
              >> Switch true (
                Case 101 (* e *) (Inc 1
                  >> IfEnd 2 0
                  >> IfAll [TL 116; TL 97; TL 103]
                    (Inc 3
                    >> IfTerm 77
                    >> Bnil)
                  >> Ret 0
                  >> Bnil) ( 
                Case 105 (* i *) (Inc 1
                  >> IfEnd 6 0
                  >> IfAll [TL 102; TX 45; TL 109; TL 97; TL 116; TL 99; TL 104]
                    (Inc 7
                    >> IfTerm 78
                    >> Bnil)
                  >> Ret 0
                  >> Bnil) ( Cnil)))
              >> Bnil)
            >> Bnil)
          >> Ret 0
          >> Bnil) ( 
        Case 117 (* u *) (Inc 1
          >> Switch true (
            Case 98 (* b *) (Inc 1
              >> Switch true (
                Case 106 (* j *) (Inc 1
                  >> IfEnd 2 0
                  >> IfAll [TL 101; TL 99; TL 116]
                    (Inc 3
                    >> IfTerm 36
                    >> Bnil)
                  >> Ret 0
                  >> Bnil) ( 
                Case 115 (* s *) (Inc 1
                  >> IfEnd 13 0
                  >> IfAll [TL 99; TL 114; TL 105; TL 112; TL 116; TL 105; TL 111; TL 110; TX 45; TL 115; TL 116; TL 97; TL 116; TL 101]
                    (Inc 14
                    >> IfTerm 47
                    >> Bnil)
                  >> Ret 0
                  >> Bnil) ( Cnil)))
              >> Ret 0
              >> Bnil) ( 
            Case 112 (* p *) (Inc 1
              >> IfNext (TL 112)
                (Inc 1
                >> Switch true (
                  Case 111 (* o *) (Inc 1
                    >> IfEnd 3 0
                    >> IfAll [TL 114; TL 116; TL 101; TL 100]
                      (Inc 4
                      >> IfTerm 37
                      >> Bnil)
                    >> Ret 0
                    >> Bnil) ( 
                  Case 114 (* r *) (Inc 1
                    >> IfEnd 11 0
                    >> IfAll [TL 101; TL 115; TL 115; TX 45; TL 105; TL 102; TX 45; TL 109; TL 97; TL 116; TL 99; TL 104]
                      (Inc 12
                      >> IfTerm 104
                      >> Bnil)
                    >> Ret 0
                    >> Bnil) ( Cnil)))
                >> Bnil)
              >> Ret 0
              >> Bnil) ( Cnil)))
          >> Ret 0
          >> Bnil) ( Cnil))))
      >> Ret 0
      >> Bnil) ( 
    Case 116 (* t *) (Inc 1
      >> IfTerm 39
      >> Switch true (
        Case 97 (* a *) (Inc 1
          >> IfEnd 10 0
          >> IfAll [TL 114; TL 103; TL 101; TL 116; TX 45; TL 100; TL 105; TL 97; TL 108; TL 111; TL 103]
            (Inc 11
            >> IfTerm 92
            >> Bnil)
          >> Ret 0
          >> Bnil) ( 
        Case 105 (* i *) (Inc 1
          >> IfEnd 6 0
          >> IfAll [TL 109; TL 101; TL 115; TL 116; TL 97; TL 109; TL 112]
            (Inc 7
            >> IfTerm 38
            >> Bnil)
          >> Ret 0
          >> Bnil) ( 
        Case 111 (* o *) (Inc 1
          >> IfTerm 39
          >> Ret 0
          >> Bnil) ( 
        Case 114 (* r *) (Inc 1
          >> IfEnd 12 0
          >> IfAll [TL 105; TL 103; TL 103; TL 101; TL 114; TX 45; TL 99; TL 111; TL 110; TL 115; TL 101; TL 110; TL 116]
            (Inc 13
            >> IfTerm 98
            >> Bnil)
          >> Ret 0
          >> Bnil) ( Cnil)))))
      >> Ret 0
      >> Bnil) ( 
    Case 117 (* u *) (Inc 1
      >> IfTerm 48
      >> Switch true (
        Case 110 (* n *) (Inc 1
          >> IfEnd 8 0
          >> IfAll [TL 115; TL 117; TL 112; TL 112; TL 111; TL 114; TL 116; TL 101; TL 100]
            (Inc 9
            >> IfTerm 40
            >> Bnil)
          >> Ret 0
          >> Bnil) ( 
        Case 115 (* s *) (Inc 1
          >> IfNext (TL 101)
            (Inc 1
            >> IfNext (TL 114)
              (Inc 1
              >> IfNext (TX 45)
                (Inc 1
                >> Switch true (
                  Case 97 (* a *) (Inc 1
                    >> IfEnd 3 0
                    >> IfAll [TL 103; TL 101; TL 110; TL 116]
                      (Inc 4
                      >> IfTerm 41
                      >> Bnil)
                    >> Ret 0
                    >> Bnil) ( 
                  Case 116 (* t *) (Inc 1
                    >> IfEnd 5 0
                    >> IfAll [TL 111; TX 45; TL 117; TL 115; TL 101; TL 114]
                      (Inc 6
                      >> IfTerm 118
                      >> Bnil)
                    >> Ret 0
                    >> Bnil) ( Cnil)))
                >> Bnil)
              >> Bnil)
            >> Bnil)
          >> Ret 0
          >> Bnil) ( Cnil)))
      >> Ret 0
      >> Bnil) ( 
    Case 118 (* v *) (Inc 1
      >> IfTerm 42
      >> IfEnd 1 0
      >> IfAll [TL 105; TL 97]
        (Inc 2
        >> IfTerm 42
        >> Bnil)
      >> Ret 0
      >> Bnil) ( 
    Case 119 (* w *) (Inc 1
      >> Switch true (
        Case 97 (* a *) (Inc 1
          >> IfEnd 4 0
          >> IfAll [TL 114; TL 110; TL 105; TL 110; TL 103]
            (Inc 5
            >> IfTerm 43
            >> Bnil)
          >> Ret 0
          >> Bnil) ( 
        Case 119 (* w *) (Inc 1
          >> IfEnd 13 0
          >> IfAll [TL 119; TX 45; TL 97; TL 117; TL 116; TL 104; TL 101; TL 110; TL 116; TL 105; TL 99; TL 97; TL 116; TL 101]
            (Inc 14
            >> IfTerm 44
            >> Bnil)
          >> Ret 0
          >> Bnil) ( Cnil)))
      >> Ret 0
      >> Bnil) ( 
    Case 120 (* x *) (Inc 1
      >> IfTerm 83
      >> Ret 0
      >> Bnil) ( Cnil)))))))))))))))))))))))
  >> Ret 0
  >> Bnil).
