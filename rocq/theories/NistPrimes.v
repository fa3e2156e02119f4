(** * Primality of the field moduli of P-224, P-256, P-384 and P-521: Pocklington certificates generated by tools/nist.py *)
From Coq Require Import Znumtheory.
From Verif Require Import Base ECModel NumTheory FastMod Pock.
Open Scope Z_scope.
Lemma prime_641 : prime 641.
Proof. apply trial_ok_spec. vm_cast_no_check (eq_refl true). Qed.
Lemma prime_65537 : prime 65537.
Proof. apply trial_ok_spec. vm_cast_no_check (eq_refl true). Qed.
Lemma prime_2 : prime 2.
Proof. apply trial_ok_spec. vm_cast_no_check (eq_refl true). Qed.
Lemma prime_3 : prime 3.
Proof. apply trial_ok_spec. vm_cast_no_check (eq_refl true). Qed.
Lemma prime_7 : prime 7.
Proof. apply trial_ok_spec. vm_cast_no_check (eq_refl true). Qed.
Lemma prime_17 : prime 17.
Proof. apply trial_ok_spec. vm_cast_no_check (eq_refl true). Qed.
Lemma prime_274177 : prime 274177.
Proof. apply (pockn_prime (barrett 274177 1002556 18 20) 274177 5 (Node (Node (Node (Leaf 2) (Leaf 3)) (Leaf 7)) (Leaf 17)) 384 (fun x => barrett_spec 274177 1002556 18 20 x eq_refl) (Forall_cons 2 prime_2 (Forall_cons 3 prime_3 (Forall_cons 7 prime_7 (Forall_cons 17 prime_17 (Forall_nil _))))) eq_refl eq_refl). vm_cast_no_check (eq_refl true). Qed.
Lemma prime_17449 : prime 17449.
Proof. apply trial_ok_spec. vm_cast_no_check (eq_refl true). Qed.
Lemma prime_6700417 : prime 6700417.
Proof. apply (pock1_prime (barrett 6700417 10502143 22 24) 6700417 3 17449 384 (fun x => barrett_spec 6700417 10502143 22 24 x eq_refl) prime_17449 eq_refl). vm_cast_no_check (eq_refl true). Qed.
Lemma prime_5 : prime 5.
Proof. apply trial_ok_spec. vm_cast_no_check (eq_refl true). Qed.
Lemma prime_16657 : prime 16657.
Proof. apply trial_ok_spec. vm_cast_no_check (eq_refl true). Qed.
Lemma prime_166571 : prime 166571.
Proof. apply (pock1_prime (barrett 166571 412553 17 19) 166571 2 16657 10 (fun x => barrett_spec 166571 412553 17 19 x eq_refl) prime_16657 eq_refl). vm_cast_no_check (eq_refl true). Qed.
Lemma prime_2998279 : prime 2998279.
Proof. apply (pock1_prime (barrett 2998279 5867427 21 23) 2998279 2 166571 18 (fun x => barrett_spec 2998279 5867427 21 23 x eq_refl) prime_166571 eq_refl). vm_cast_no_check (eq_refl true). Qed.
Lemma prime_67280421310721 : prime 67280421310721.
Proof. apply (pockn_prime (barrett 67280421310721 73598828019711 45 47) 67280421310721 3 (Node (Leaf 5) (Leaf 2998279)) 4487936 (fun x => barrett_spec 67280421310721 73598828019711 45 47 x eq_refl) (Forall_cons 5 prime_5 (Forall_cons 2998279 prime_2998279 (Forall_nil _))) eq_refl eq_refl). vm_cast_no_check (eq_refl true). Qed.
Lemma prime_26959946667150639794667015087019630673557916260026308143510066298881 : prime 26959946667150639794667015087019630673557916260026308143510066298881.
Proof. apply (pockn_prime red224 26959946667150639794667015087019630673557916260026308143510066298881 2 (Node (Node (Node (Leaf 641) (Leaf 65537)) (Node (Leaf 274177) (Leaf 6700417))) (Leaf 67280421310721)) 5192217630372313364192902785269760 red224_spec (Forall_cons 641 prime_641 (Forall_cons 65537 prime_65537 (Forall_cons 274177 prime_274177 (Forall_cons 6700417 prime_6700417 (Forall_cons 67280421310721 prime_67280421310721 (Forall_nil _)))))) eq_refl eq_refl). vm_cast_no_check (eq_refl true). Qed.
Lemma prime_11 : prime 11.
Proof. apply trial_ok_spec. vm_cast_no_check (eq_refl true). Qed.
Lemma prime_3769 : prime 3769.
Proof. apply trial_ok_spec. vm_cast_no_check (eq_refl true). Qed.
Lemma prime_204061199 : prime 204061199.
Proof. apply (pockn_prime (barrett 204061199 353117566 27 29) 204061199 3 (Node (Leaf 11) (Leaf 3769)) 4922 (fun x => barrett_spec 204061199 353117566 27 29 x eq_refl) (Forall_cons 11 prime_11 (Forall_cons 3769 prime_3769 (Forall_nil _))) eq_refl eq_refl). vm_cast_no_check (eq_refl true). Qed.
Lemma prime_34282281433 : prime 34282281433.
Proof. apply (pock1_prime (barrett 34282281433 34437370308 34 36) 34282281433 2 204061199 168 (fun x => barrett_spec 34282281433 34437370308 34 36 x eq_refl) prime_204061199 eq_refl). vm_cast_no_check (eq_refl true). Qed.
Lemma prime_173 : prime 173.
Proof. apply trial_ok_spec. vm_cast_no_check (eq_refl true). Qed.
Lemma prime_3677 : prime 3677.
Proof. apply trial_ok_spec. vm_cast_no_check (eq_refl true). Qed.
Lemma prime_66417393611 : prime 66417393611.
Proof. apply (pockn_prime (barrett 66417393611 71101352012 35 37) 66417393611 2 (Node (Leaf 173) (Leaf 3677)) 104410 (fun x => barrett_spec 66417393611 71101352012 35 37 x eq_refl) (Forall_cons 173 prime_173 (Forall_cons 3677 prime_3677 (Forall_nil _))) eq_refl eq_refl). vm_cast_no_check (eq_refl true). Qed.
Lemma prime_11290956913871 : prime 11290956913871.
Proof. apply (pock1_prime (barrett 11290956913871 27409989443954 43 45) 11290956913871 2 66417393611 170 (fun x => barrett_spec 11290956913871 27409989443954 43 45 x eq_refl) prime_66417393611 eq_refl). vm_cast_no_check (eq_refl true). Qed.
Lemma prime_774023187263532362759620327192479577272145303 : prime 774023187263532362759620327192479577272145303.
Proof. apply (pockn_prime (barrett 774023187263532362759620327192479577272145303 2631750585581533278093037074796924928441187580 149 151) 774023187263532362759620327192479577272145303 2 (Node (Leaf 34282281433) (Leaf 11290956913871)) 1999647778344266217114 (fun x => barrett_spec 774023187263532362759620327192479577272145303 2631750585581533278093037074796924928441187580 149 151 x eq_refl) (Forall_cons 34282281433 prime_34282281433 (Forall_cons 11290956913871 prime_11290956913871 (Forall_nil _))) eq_refl eq_refl). vm_cast_no_check (eq_refl true). Qed.
Lemma prime_835945042244614951780389953367877943453916927241 : prime 835945042244614951780389953367877943453916927241.
Proof. apply (pock1_prime (barrett 835945042244614951780389953367877943453916927241 2555176390765501702416374484946537364597358062990 159 161) 835945042244614951780389953367877943453916927241 2 774023187263532362759620327192479577272145303 1080 (fun x => barrett_spec 835945042244614951780389953367877943453916927241 2555176390765501702416374484946537364597358062990 159 161 x eq_refl) prime_774023187263532362759620327192479577272145303 eq_refl). vm_cast_no_check (eq_refl true). Qed.
Lemma prime_115792089210356248762697446949407573530086143415290314195533631308867097853951 : prime 115792089210356248762697446949407573530086143415290314195533631308867097853951.
Proof. apply (pock1_prime (barrett 115792089210356248762697446949407573530086143415290314195533631308867097853951 115792089264276142090721624801893421302618430054073857003285787780261785632771 255 257) 115792089210356248762697446949407573530086143415290314195533631308867097853951 2 835945042244614951780389953367877943453916927241 138516389665330497628477975950 (fun x => barrett_spec 115792089210356248762697446949407573530086143415290314195533631308867097853951 115792089264276142090721624801893421302618430054073857003285787780261785632771 255 257 x eq_refl) prime_835945042244614951780389953367877943453916927241 eq_refl). vm_cast_no_check (eq_refl true). Qed.
Lemma prime_8389 : prime 8389.
Proof. apply trial_ok_spec. vm_cast_no_check (eq_refl true). Qed.
Lemma prime_38557 : prime 38557.
Proof. apply trial_ok_spec. vm_cast_no_check (eq_refl true). Qed.
Lemma prime_937 : prime 937.
Proof. apply trial_ok_spec. vm_cast_no_check (eq_refl true). Qed.
Lemma prime_363557 : prime 363557.
Proof. apply (pock1_prime (barrett 363557 756079 18 20) 363557 2 937 388 (fun x => barrett_spec 363557 756079 18 20 x eq_refl) prime_937 eq_refl). vm_cast_no_check (eq_refl true). Qed.
Lemma prime_532247449 : prime 532247449.
Proof. apply (pock1_prime (barrett 532247449 541534537 28 30) 532247449 2 363557 1464 (fun x => barrett_spec 532247449 541534537 28 30 x eq_refl) prime_363557 eq_refl). vm_cast_no_check (eq_refl true). Qed.
Lemma prime_44925942675193 : prime 44925942675193.
Proof. apply (pock1_prime (barrett 44925942675193 110220506510946 45 47) 44925942675193 2 532247449 84408 (fun x => barrett_spec 44925942675193 110220506510946 45 47 x eq_refl) prime_532247449 eq_refl). vm_cast_no_check (eq_refl true). Qed.
Lemma prime_35581458644053887931343 : prime 35581458644053887931343.
Proof. apply (pock1_prime (barrett 35581458644053887931343 40112118701588728548912 74 76) 35581458644053887931343 2 44925942675193 792002494 (fun x => barrett_spec 35581458644053887931343 40112118701588728548912 74 76 x eq_refl) prime_44925942675193 eq_refl). vm_cast_no_check (eq_refl true). Qed.
Lemma prime_23964610537191310276190549303 : prime 23964610537191310276190549303.
Proof. apply (pock1_prime (barrett 23964610537191310276190549303 65483035136801840086633674605 94 96) 23964610537191310276190549303 2 35581458644053887931343 673514 (fun x => barrett_spec 23964610537191310276190549303 65483035136801840086633674605 94 96 x eq_refl) prime_35581458644053887931343 eq_refl). vm_cast_no_check (eq_refl true). Qed.
Lemma prime_862725979338887169942859774909 : prime 862725979338887169942859774909.
Proof. apply (pock1_prime (barrett 862725979338887169942859774909 1862628555002363451353135633225 99 101) 862725979338887169942859774909 2 23964610537191310276190549303 36 (fun x => barrett_spec 862725979338887169942859774909 1862628555002363451353135633225 99 101 x eq_refl) prime_23964610537191310276190549303 eq_refl). vm_cast_no_check (eq_refl true). Qed.
Lemma prime_20705423504133292078628634597817 : prime 20705423504133292078628634597817.
Proof. apply (pock1_prime (barrett 20705423504133292078628634597817 79472151680100840591067120350959 104 106) 20705423504133292078628634597817 2 862725979338887169942859774909 24 (fun x => barrett_spec 20705423504133292078628634597817 79472151680100840591067120350959 104 106 x eq_refl) prime_862725979338887169942859774909 eq_refl). vm_cast_no_check (eq_refl true). Qed.
Lemma prime_413244619895455989650825325680172591660047 : prime 413244619895455989650825325680172591660047.
Proof. apply (pock1_prime (barrett 413244619895455989650825325680172591660047 1175253589942194507455867055756381589420809 138 140) 413244619895455989650825325680172591660047 2 20705423504133292078628634597817 19958279038 (fun x => barrett_spec 413244619895455989650825325680172591660047 1175253589942194507455867055756381589420809 138 140 x eq_refl) prime_20705423504133292078628634597817 eq_refl). vm_cast_no_check (eq_refl true). Qed.
Lemma prime_12397338596863679689524759770405177749801411 : prime 12397338596863679689524759770405177749801411.
Proof. apply (pock1_prime (barrett 12397338596863679689524759770405177749801411 40115322536693572521160262169817824918896948 143 145) 12397338596863679689524759770405177749801411 2 413244619895455989650825325680172591660047 30 (fun x => barrett_spec 12397338596863679689524759770405177749801411 40115322536693572521160262169817824918896948 143 145 x eq_refl) prime_413244619895455989650825325680172591660047 eq_refl). vm_cast_no_check (eq_refl true). Qed.
Lemma prime_19173790298027098165721053155794528970226934547887232785722672956982046098136719667167519737147526097 : prime 19173790298027098165721053155794528970226934547887232785722672956982046098136719667167519737147526097.
Proof. apply (pockn_prime (barrett 19173790298027098165721053155794528970226934547887232785722672956982046098136719667167519737147526097 63874737786735583343711649445354594854112675697121985224023533191731717547509533180595272501480630873 333 335) 19173790298027098165721053155794528970226934547887232785722672956982046098136719667167519737147526097 2 (Node (Node (Leaf 8389) (Leaf 38557)) (Leaf 12397338596863679689524759770405177749801411)) 4781521143562694695053282606574271094129800123632 (fun x => barrett_spec 19173790298027098165721053155794528970226934547887232785722672956982046098136719667167519737147526097 63874737786735583343711649445354594854112675697121985224023533191731717547509533180595272501480630873 333 335 x eq_refl) (Forall_cons 8389 prime_8389 (Forall_cons 38557 prime_38557 (Forall_cons 12397338596863679689524759770405177749801411 prime_12397338596863679689524759770405177749801411 (Forall_nil _)))) eq_refl eq_refl). vm_cast_no_check (eq_refl true). Qed.
Lemma prime_39402006196394479212279040100143613805079739270465446667948293404245721771496870329047266088258938001861606973112319 : prime 39402006196394479212279040100143613805079739270465446667948293404245721771496870329047266088258938001861606973112319.
Proof. apply (pock1_prime red384 39402006196394479212279040100143613805079739270465446667948293404245721771496870329047266088258938001861606973112319 2 19173790298027098165721053155794528970226934547887232785722672956982046098136719667167519737147526097 2054993070433694 red384_spec prime_19173790298027098165721053155794528970226934547887232785722672956982046098136719667167519737147526097 eq_refl). vm_cast_no_check (eq_refl true). Qed.
Lemma prime_13 : prime 13.
Proof. apply trial_ok_spec. vm_cast_no_check (eq_refl true). Qed.
Lemma prime_317 : prime 317.
Proof. apply trial_ok_spec. vm_cast_no_check (eq_refl true). Qed.
Lemma prime_7623851 : prime 7623851.
Proof. apply (pockn_prime (barrett 7623851 9230078 22 24) 7623851 3 (Node (Leaf 13) (Leaf 317)) 1850 (fun x => barrett_spec 7623851 9230078 22 24 x eq_refl) (Forall_cons 13 prime_13 (Forall_cons 317 prime_317 (Forall_nil _))) eq_refl eq_refl). vm_cast_no_check (eq_refl true). Qed.
Lemma prime_49481 : prime 49481.
Proof. apply trial_ok_spec. vm_cast_no_check (eq_refl true). Qed.
Lemma prime_308761441 : prime 308761441.
Proof. apply (pock1_prime (barrett 308761441 933505087 28 30) 308761441 3 49481 6240 (fun x => barrett_spec 308761441 933505087 28 30 x eq_refl) prime_49481 eq_refl). vm_cast_no_check (eq_refl true). Qed.
Lemma prime_1663 : prime 1663.
Proof. apply trial_ok_spec. vm_cast_no_check (eq_refl true). Qed.
Lemma prime_2400573761 : prime 2400573761.
Proof. apply (pockn_prime (barrett 2400573761 7684306299 31 33) 2400573761 3 (Node (Node (Leaf 5) (Leaf 13)) (Leaf 1663)) 22208 (fun x => barrett_spec 2400573761 7684306299 31 33 x eq_refl) (Forall_cons 5 prime_5 (Forall_cons 13 prime_13 (Forall_cons 1663 prime_1663 (Forall_nil _)))) eq_refl eq_refl). vm_cast_no_check (eq_refl true). Qed.
Lemma prime_683 : prime 683.
Proof. apply trial_ok_spec. vm_cast_no_check (eq_refl true). Qed.
Lemma prime_23609 : prime 23609.
Proof. apply trial_ok_spec. vm_cast_no_check (eq_refl true). Qed.
Lemma prime_108140989558681 : prime 108140989558681.
Proof. apply (pockn_prime (barrett 108140989558681 183159417251477 46 48) 108140989558681 3 (Node (Leaf 683) (Leaf 23609)) 6706440 (fun x => barrett_spec 108140989558681 183159417251477 46 48 x eq_refl) (Forall_cons 683 prime_683 (Forall_cons 23609 prime_23609 (Forall_nil _))) eq_refl eq_refl). vm_cast_no_check (eq_refl true). Qed.
Lemma prime_151 : prime 151.
Proof. apply trial_ok_spec. vm_cast_no_check (eq_refl true). Qed.
Lemma prime_223 : prime 223.
Proof. apply trial_ok_spec. vm_cast_no_check (eq_refl true). Qed.
Lemma prime_8620289 : prime 8620289.
Proof. apply (pockn_prime (barrett 8620289 32652614 23 25) 8620289 2 (Node (Leaf 151) (Leaf 223)) 256 (fun x => barrett_spec 8620289 32652614 23 25 x eq_refl) (Forall_cons 151 prime_151 (Forall_cons 223 prime_223 (Forall_nil _))) eq_refl eq_refl). vm_cast_no_check (eq_refl true). Qed.
Lemma prime_2534364967 : prime 2534364967.
Proof. apply (pock1_prime (barrett 2534364967 7278645465 31 33) 2534364967 2 8620289 294 (fun x => barrett_spec 2534364967 7278645465 31 33 x eq_refl) prime_8620289 eq_refl). vm_cast_no_check (eq_refl true). Qed.
Lemma prime_145295143558111 : prime 145295143558111.
Proof. apply (pock1_prime (barrett 145295143558111 545291195383808 47 49) 145295143558111 3 2534364967 57330 (fun x => barrett_spec 145295143558111 545291195383808 47 49 x eq_refl) prime_2534364967 eq_refl). vm_cast_no_check (eq_refl true). Qed.
Lemma prime_2437 : prime 2437.
Proof. apply trial_ok_spec. vm_cast_no_check (eq_refl true). Qed.
Lemma prime_9211861 : prime 9211861.
Proof. apply (pockn_prime (barrett 9211861 30555712 23 25) 9211861 2 (Node (Leaf 2) (Leaf 2437)) 1890 (fun x => barrett_spec 9211861 30555712 23 25 x eq_refl) (Forall_cons 2 prime_2 (Forall_cons 2437 prime_2437 (Forall_nil _))) eq_refl eq_refl). vm_cast_no_check (eq_refl true). Qed.
Lemma prime_24098228377 : prime 24098228377.
Proof. apply (pock1_prime (barrett 24098228377 48990805558 34 36) 24098228377 2 9211861 2616 (fun x => barrett_spec 24098228377 48990805558 34 36 x eq_refl) prime_9211861 eq_refl). vm_cast_no_check (eq_refl true). Qed.
Lemma prime_674750394557 : prime 674750394557.
Proof. apply (pock1_prime (barrett 674750394557 1791663746129 39 41) 674750394557 2 24098228377 28 (fun x => barrett_spec 674750394557 1791663746129 39 41 x eq_refl) prime_24098228377 eq_refl). vm_cast_no_check (eq_refl true). Qed.
Lemma prime_361725589517273017 : prime 361725589517273017.
Proof. apply (pock1_prime (barrett 361725589517273017 918671524980293768 58 60) 361725589517273017 2 674750394557 536088 (fun x => barrett_spec 361725589517273017 918671524980293768 58 60 x eq_refl) prime_674750394557 eq_refl). vm_cast_no_check (eq_refl true). Qed.
Lemma prime_173308343918874810521923841 : prime 173308343918874810521923841.
Proof. apply (pock1_prime (barrett 173308343918874810521923841 552662203898000892882532949 87 89) 173308343918874810521923841 3 361725589517273017 479115520 (fun x => barrett_spec 173308343918874810521923841 552662203898000892882532949 87 89 x eq_refl) prime_361725589517273017 eq_refl). vm_cast_no_check (eq_refl true). Qed.
Lemma prime_6864797660130609714981900799081393217269435300143305409394463459185543183397656052122559640661454554977296311391480858037121987999716643812574028291115057151 : prime 6864797660130609714981900799081393217269435300143305409394463459185543183397656052122559640661454554977296311391480858037121987999716643812574028291115057151.
Proof. apply (pockn_prime red521 6864797660130609714981900799081393217269435300143305409394463459185543183397656052122559640661454554977296311391480858037121987999716643812574028291115057151 3 (Node (Node (Node (Leaf 7623851) (Leaf 308761441)) (Node (Leaf 2400573761) (Leaf 108140989558681))) (Node (Leaf 145295143558111) (Leaf 173308343918874810521923841))) 446122694994273355468569181069526146549288076435063946475848252405618762060150 red521_spec (Forall_cons 7623851 prime_7623851 (Forall_cons 308761441 prime_308761441 (Forall_cons 2400573761 prime_2400573761 (Forall_cons 108140989558681 prime_108140989558681 (Forall_cons 145295143558111 prime_145295143558111 (Forall_cons 173308343918874810521923841 prime_173308343918874810521923841 (Forall_nil _))))))) eq_refl eq_refl). vm_cast_no_check (eq_refl true). Qed.
