(** Generated by tools/gen_tables.py: the text of composipy/pre_integrated_component/_ii_F.py, row i, column k
    holding the value stored under the key (i, k). *)
From Coq Require Import String List.
Import ListNotations.
Open Scope string_scope.
Open Scope list_scope.

(** _ii_F.py:6-907 *)
Definition ii_FF : list (list string) := [
  ["0.742857142857143"; "0.104761904761905"; "0.257142857142857"; "-0.0619047619047619"; "0.0666666666666667"; "-0.0126984126984127"; "1.04083408558608e-17"; "0.000288600288600283"; "-1.38777878078145e-17"; "-4.16333634234434e-17"; "0"; "1.11022302462516e-16"; "0"; "-2.77555756156289e-16"; "-8.88178419700125e-16"; "0"; "-8.88178419700125e-16"; "1.77635683940025e-15"; "0"; "-1.42108547152020e-14"; "9.47505962578532e-15"; "2.70894418008538e-14"; "-2.62900812231237e-13"; "1.71945790938821e-13"; "-5.48894263374677e-13"; "-8.52651282912120e-13"; "0"; "3.63792329594048e-13"; "7.42754122096123e-12"; "-2.91038304567337e-11"];
  ["0.104761904761905"; "0.0190476190476190"; "0.0619047619047619"; "-0.0142857142857143"; "0.0142857142857143"; "-0.00158730158730158"; "-0.000529100529100528"; "0.000144300144300138"; "0"; "8.67361737988404e-18"; "6.93889390390723e-18"; "-2.77555756156289e-17"; "1.38777878078145e-17"; "8.32667268468867e-17"; "0"; "-2.77555756156289e-16"; "-4.44089209850063e-16"; "-3.88578058618805e-16"; "1.77635683940025e-15"; "-3.99680288865056e-15"; "3.55271367880050e-15"; "-1.25455201782643e-14"; "0"; "-4.15674439313563e-14"; "-2.06945571790129e-13"; "-2.07833750209829e-13"; "2.04641859014032e-13"; "2.55795384873636e-12"; "0"; "1.21265958429387e-12"];
  ["0.257142857142857"; "0.0619047619047619"; "0.742857142857143"; "-0.104761904761905"; "0.0666666666666667"; "0.0126984126984127"; "-3.46944695195361e-18"; "-0.000288600288600283"; "-3.46944695195361e-17"; "4.68375338513738e-17"; "-2.77555756156289e-17"; "-7.97972798949331e-17"; "-2.22044604925031e-16"; "2.22044604925031e-16"; "-1.11022302462516e-16"; "-4.44089209850063e-16"; "1.33226762955019e-15"; "0"; "0"; "-1.22124532708767e-14"; "-1.89466498046187e-14"; "-4.26325641456060e-14"; "-1.49213974509621e-13"; "1.77635683940025e-13"; "-6.05737682235485e-13"; "-7.68801688977305e-13"; "1.81898940354586e-12"; "1.42108547152020e-14"; "1.51583606777805e-13"; "9.09494701772928e-13"];
  ["-0.0619047619047619"; "-0.0142857142857143"; "-0.104761904761905"; "0.0190476190476191"; "-0.0142857142857143"; "-0.00158730158730158"; "0.000529100529100525"; "0.000144300144300138"; "0"; "6.93889390390723e-18"; "0"; "2.77555756156289e-17"; "2.08166817117217e-17"; "2.77555756156289e-17"; "0"; "0"; "1.80411241501588e-16"; "-8.32667268468867e-16"; "8.88178419700125e-16"; "-4.44089209850063e-16"; "7.99360577730113e-15"; "-1.95399252334028e-14"; "0"; "-4.15674439313563e-14"; "-1.08357767203415e-13"; "7.57912612878164e-14"; "0"; "-4.54747350886464e-13"; "0"; "1.21265958429387e-12"];
  ["0.0666666666666667"; "0.0142857142857143"; "0.0666666666666667"; "-0.0142857142857143"; "4/315"; "0"; "-8/10395"; "0"; "2/45045"; "0"; "0"; "0"; "0"; "0"; "0"; "0"; "0"; "0"; "0"; "0"; "0"; "0"; "0"; "0"; "0"; "0"; "0"; "0"; "0"; "0"];
  ["-0.0126984126984127"; "-0.00158730158730158"; "0.0126984126984127"; "-0.00158730158730158"; "0"; "4/3465"; "0"; "-8/45045"; "0"; "2/135135"; "0"; "0"; "0"; "0"; "0"; "0"; "0"; "0"; "0"; "0"; "0"; "0"; "0"; "0"; "0"; "0"; "0"; "0"; "0"; "0"];
  ["1.04083408558608e-17"; "-0.000529100529100528"; "-3.46944695195361e-18"; "0.000529100529100525"; "-8/10395"; "0"; "4/15015"; "0"; "-8/135135"; "0"; "2/328185"; "0"; "0"; "0"; "0"; "0"; "0"; "0"; "0"; "0"; "0"; "0"; "0"; "0"; "0"; "0"; "0"; "0"; "0"; "0"];
  ["0.000288600288600283"; "0.000144300144300138"; "-0.000288600288600283"; "0.000144300144300138"; "0"; "-8/45045"; "0"; "4/45045"; "0"; "-8/328185"; "0"; "2/692835"; "0"; "0"; "0"; "0"; "0"; "0"; "0"; "0"; "0"; "0"; "0"; "0"; "0"; "0"; "0"; "0"; "0"; "0"];
  ["-1.38777878078145e-17"; "0"; "-3.46944695195361e-17"; "0"; "2/45045"; "0"; "-8/135135"; "0"; "4/109395"; "0"; "-8/692835"; "0"; "2/1322685"; "0"; "0"; "0"; "0"; "0"; "0"; "0"; "0"; "0"; "0"; "0"; "0"; "0"; "0"; "0"; "0"; "0"];
  ["-4.16333634234434e-17"; "8.67361737988404e-18"; "4.68375338513738e-17"; "6.93889390390723e-18"; "0"; "2/135135"; "0"; "-8/328185"; "0"; "4/230945"; "0"; "-8/1322685"; "0"; "2/2340135"; "0"; "0"; "0"; "0"; "0"; "0"; "0"; "0"; "0"; "0"; "0"; "0"; "0"; "0"; "0"; "0"];
  ["0"; "6.93889390390723e-18"; "-2.77555756156289e-17"; "0"; "0"; "0"; "2/328185"; "0"; "-8/692835"; "0"; "4/440895"; "0"; "-8/2340135"; "0"; "2/3900225"; "0"; "0"; "0"; "0"; "0"; "0"; "0"; "0"; "0"; "0"; "0"; "0"; "0"; "0"; "0"];
  ["1.11022302462516e-16"; "-2.77555756156289e-17"; "-7.97972798949331e-17"; "2.77555756156289e-17"; "0"; "0"; "0"; "2/692835"; "0"; "-8/1322685"; "0"; "4/780045"; "0"; "-8/3900225"; "0"; "2/6194475"; "0"; "0"; "0"; "0"; "0"; "0"; "0"; "0"; "0"; "0"; "0"; "0"; "0"; "0"];
  ["0"; "1.38777878078145e-17"; "-2.22044604925031e-16"; "2.08166817117217e-17"; "0"; "0"; "0"; "0"; "2/1322685"; "0"; "-8/2340135"; "0"; "4/1300075"; "0"; "-8/6194475"; "0"; "2/9454725"; "0"; "0"; "0"; "0"; "0"; "0"; "0"; "0"; "0"; "0"; "0"; "0"; "0"];
  ["-2.77555756156289e-16"; "8.32667268468867e-17"; "2.22044604925031e-16"; "2.77555756156289e-17"; "0"; "0"; "0"; "0"; "0"; "2/2340135"; "0"; "-8/3900225"; "0"; "4/2064825"; "0"; "-8/9454725"; "0"; "2/13956975"; "0"; "0"; "0"; "0"; "0"; "0"; "0"; "0"; "0"; "0"; "0"; "0"];
  ["-8.88178419700125e-16"; "0"; "-1.11022302462516e-16"; "0"; "0"; "0"; "0"; "0"; "0"; "0"; "2/3900225"; "0"; "-8/6194475"; "0"; "4/3151575"; "0"; "-8/13956975"; "0"; "2/20025225"; "0"; "0"; "0"; "0"; "0"; "0"; "0"; "0"; "0"; "0"; "0"];
  ["0"; "-2.77555756156289e-16"; "-4.44089209850063e-16"; "0"; "0"; "0"; "0"; "0"; "0"; "0"; "0"; "2/6194475"; "0"; "-8/9454725"; "0"; "4/4652325"; "0"; "-8/20025225"; "0"; "2/28035315"; "0"; "0"; "0"; "0"; "0"; "0"; "0"; "0"; "0"; "0"];
  ["-8.88178419700125e-16"; "-4.44089209850063e-16"; "1.33226762955019e-15"; "1.80411241501588e-16"; "0"; "0"; "0"; "0"; "0"; "0"; "0"; "0"; "2/9454725"; "0"; "-8/13956975"; "0"; "4/6675075"; "0"; "-8/28035315"; "0"; "2/38418765"; "0"; "0"; "0"; "0"; "0"; "0"; "0"; "0"; "0"];
  ["1.77635683940025e-15"; "-3.88578058618805e-16"; "0"; "-8.32667268468867e-16"; "0"; "0"; "0"; "0"; "0"; "0"; "0"; "0"; "0"; "2/13956975"; "0"; "-8/20025225"; "0"; "4/9345105"; "0"; "-8/38418765"; "0"; "2/51666615"; "0"; "0"; "0"; "0"; "0"; "0"; "0"; "0"];
  ["0"; "1.77635683940025e-15"; "0"; "8.88178419700125e-16"; "0"; "0"; "0"; "0"; "0"; "0"; "0"; "0"; "0"; "0"; "2/20025225"; "0"; "-8/28035315"; "0"; "4/12806255"; "0"; "-8/51666615"; "0"; "2/68333265"; "0"; "0"; "0"; "0"; "0"; "0"; "0"];
  ["-1.42108547152020e-14"; "-3.99680288865056e-15"; "-1.22124532708767e-14"; "-4.44089209850063e-16"; "0"; "0"; "0"; "0"; "0"; "0"; "0"; "0"; "0"; "0"; "0"; "2/28035315"; "0"; "-8/38418765"; "0"; "4/17222205"; "0"; "-8/68333265"; "0"; "2/89040315"; "0"; "0"; "0"; "0"; "0"; "0"];
  ["9.47505962578532e-15"; "3.55271367880050e-15"; "-1.89466498046187e-14"; "7.99360577730113e-15"; "0"; "0"; "0"; "0"; "0"; "0"; "0"; "0"; "0"; "0"; "0"; "0"; "2/38418765"; "0"; "-8/51666615"; "0"; "4/22777755"; "0"; "-8/89040315"; "0"; "2/114480405"; "0"; "0"; "0"; "0"; "0"];
  ["2.70894418008538e-14"; "-1.25455201782643e-14"; "-4.26325641456060e-14"; "-1.95399252334028e-14"; "0"; "0"; "0"; "0"; "0"; "0"; "0"; "0"; "0"; "0"; "0"; "0"; "0"; "2/51666615"; "0"; "-8/68333265"; "0"; "4/29680105"; "0"; "-8/114480405"; "0"; "2/145421055"; "0"; "0"; "0"; "0"];
  ["-2.62900812231237e-13"; "0"; "-1.49213974509621e-13"; "0"; "0"; "0"; "0"; "0"; "0"; "0"; "0"; "0"; "0"; "0"; "0"; "0"; "0"; "0"; "2/68333265"; "0"; "-8/89040315"; "0"; "4/38160135"; "0"; "-8/145421055"; "0"; "2/182708505"; "0"; "0"; "0"];
  ["1.71945790938821e-13"; "-4.15674439313563e-14"; "1.77635683940025e-13"; "-4.15674439313563e-14"; "0"; "0"; "0"; "0"; "0"; "0"; "0"; "0"; "0"; "0"; "0"; "0"; "0"; "0"; "0"; "2/89040315"; "0"; "-8/114480405"; "0"; "4/48473685"; "0"; "-8/182708505"; "0"; "2/227271555"; "0"; "0"];
  ["-5.48894263374677e-13"; "-2.06945571790129e-13"; "-6.05737682235485e-13"; "-1.08357767203415e-13"; "0"; "0"; "0"; "0"; "0"; "0"; "0"; "0"; "0"; "0"; "0"; "0"; "0"; "0"; "0"; "0"; "2/114480405"; "0"; "-8/145421055"; "0"; "4/60902835"; "0"; "-8/227271555"; "0"; "2/280125405"; "0"];
  ["-8.52651282912120e-13"; "-2.07833750209829e-13"; "-7.68801688977305e-13"; "7.57912612878164e-14"; "0"; "0"; "0"; "0"; "0"; "0"; "0"; "0"; "0"; "0"; "0"; "0"; "0"; "0"; "0"; "0"; "0"; "2/145421055"; "0"; "-8/182708505"; "0"; "4/75757185"; "0"; "-8/280125405"; "0"; "2/342375495"];
  ["0"; "2.04641859014032e-13"; "1.81898940354586e-12"; "0"; "0"; "0"; "0"; "0"; "0"; "0"; "0"; "0"; "0"; "0"; "0"; "0"; "0"; "0"; "0"; "0"; "0"; "0"; "2/182708505"; "0"; "-8/227271555"; "0"; "4/93375135"; "0"; "-8/342375495"; "0"];
  ["3.63792329594048e-13"; "2.55795384873636e-12"; "1.42108547152020e-14"; "-4.54747350886464e-13"; "0"; "0"; "0"; "0"; "0"; "0"; "0"; "0"; "0"; "0"; "0"; "0"; "0"; "0"; "0"; "0"; "0"; "0"; "0"; "2/227271555"; "0"; "-8/280125405"; "0"; "4/114125165"; "0"; "-8/415221345"];
  ["7.42754122096123e-12"; "0"; "1.51583606777805e-13"; "0"; "0"; "0"; "0"; "0"; "0"; "0"; "0"; "0"; "0"; "0"; "0"; "0"; "0"; "0"; "0"; "0"; "0"; "0"; "0"; "0"; "2/280125405"; "0"; "-8/342375495"; "0"; "4/138407115"; "0"];
  ["-2.91038304567337e-11"; "1.21265958429387e-12"; "9.09494701772928e-13"; "1.21265958429387e-12"; "0"; "0"; "0"; "0"; "0"; "0"; "0"; "0"; "0"; "0"; "0"; "0"; "0"; "0"; "0"; "0"; "0"; "0"; "0"; "0"; "0"; "2/342375495"; "0"; "-8/415221345"; "0"; "4/166653465"]
].

(** _ii_F.py:910-1811 *)
Definition ii_FXI_F : list (list string) := [
  ["-0.500000000000000"; "-0.100000000000000"; "-0.500000000000000"; "0.100000000000000"; "-0.0857142857142857"; "0"; "0.00317460317460316"; "0"; "0"; "0"; "0"; "0"; "0"; "0"; "4.44089209850063e-16"; "0"; "2.88657986402541e-15"; "0"; "1.39124822773340e-14"; "0"; "2.13162820728030e-14"; "0"; "0"; "0"; "1.42108547152020e-12"; "0"; "0"; "0"; "0"; "0"];
  ["0.100000000000000"; "0"; "-0.100000000000000"; "0.0166666666666667"; "-0.00952380952380952"; "-0.00476190476190476"; "0.00158730158730159"; "-5.20417042793042e-18"; "3.46944695195361e-18"; "-3.72965547335014e-17"; "1.90819582357449e-17"; "0"; "3.69712940817557e-17"; "-1.11022302462516e-16"; "0"; "1.22124532708767e-15"; "0"; "8.88178419700125e-16"; "0"; "1.19904086659517e-14"; "-8.88178419700125e-16"; "2.96052245218892e-15"; "1.89475171663567e-14"; "-1.51344214938121e-13"; "6.58436263953517e-13"; "0"; "-3.78959016944513e-14"; "1.80477854883065e-12"; "0"; "6.06329765041880e-13"];
  ["0.500000000000000"; "0.100000000000000"; "0.500000000000000"; "-0.100000000000000"; "0.0857142857142857"; "0"; "-0.00317460317460317"; "0"; "0"; "0"; "0"; "0"; "-1.38777878078145e-16"; "0"; "3.33066907387547e-16"; "0"; "3.55271367880050e-15"; "0"; "-7.10542735760100e-15"; "0"; "2.39808173319034e-14"; "0"; "-1.44328993201270e-15"; "0"; "-4.02643196562025e-13"; "0"; "-3.63709062867201e-13"; "0"; "0"; "0"];
  ["-0.100000000000000"; "-0.0166666666666667"; "0.100000000000000"; "0"; "-0.00952380952380952"; "0.00476190476190475"; "0.00158730158730158"; "-5.20417042793042e-18"; "6.93889390390723e-18"; "1.38777878078145e-17"; "-8.67361737988404e-18"; "2.77555756156289e-17"; "2.77555756156289e-17"; "-1.38777878078145e-16"; "0"; "-8.88178419700125e-16"; "-2.22044604925031e-16"; "1.11022302462516e-15"; "-3.55271367880050e-15"; "1.18423066491902e-14"; "1.33226762955019e-14"; "-1.18655085756814e-15"; "4.73692265967607e-14"; "-1.51582522575633e-13"; "5.44897460486027e-13"; "2.84217094304040e-14"; "-9.47390603467380e-13"; "1.81898940354586e-12"; "0"; "0"];
  ["0.0857142857142857"; "0.00952380952380951"; "-0.0857142857142857"; "0.00952380952380951"; "0"; "-2/315"; "0"; "2/3465"; "0"; "0"; "0"; "0"; "0"; "0"; "0"; "0"; "0"; "0"; "0"; "0"; "0"; "0"; "0"; "0"; "0"; "0"; "0"; "0"; "0"; "0"];
  ["0"; "0.00476190476190476"; "0"; "-0.00476190476190475"; "2/315"; "0"; "-2/1155"; "0"; "2/9009"; "0"; "0"; "0"; "0"; "0"; "0"; "0"; "0"; "0"; "0"; "0"; "0"; "0"; "0"; "0"; "0"; "0"; "0"; "0"; "0"; "0"];
  ["-0.00317460317460316"; "-0.00158730158730158"; "0.00317460317460321"; "-0.00158730158730159"; "0"; "2/1155"; "0"; "-2/3003"; "0"; "2/19305"; "0"; "0"; "0"; "0"; "0"; "0"; "0"; "0"; "0"; "0"; "0"; "0"; "0"; "0"; "0"; "0"; "0"; "0"; "0"; "0"];
  ["0"; "6.93889390390723e-18"; "0"; "2.08166817117217e-17"; "-2/3465"; "0"; "2/3003"; "0"; "-2/6435"; "0"; "2/36465"; "0"; "0"; "0"; "0"; "0"; "0"; "0"; "0"; "0"; "0"; "0"; "0"; "0"; "0"; "0"; "0"; "0"; "0"; "0"];
  ["0"; "0"; "0"; "0"; "0"; "-2/9009"; "0"; "2/6435"; "0"; "-2/12155"; "0"; "2/62985"; "0"; "0"; "0"; "0"; "0"; "0"; "0"; "0"; "0"; "0"; "0"; "0"; "0"; "0"; "0"; "0"; "0"; "0"];
  ["1.11022302462516e-16"; "4.16333634234434e-17"; "5.55111512312578e-17"; "2.77555756156289e-17"; "0"; "0"; "-2/19305"; "0"; "2/12155"; "0"; "-2/20995"; "0"; "2/101745"; "0"; "0"; "0"; "0"; "0"; "0"; "0"; "0"; "0"; "0"; "0"; "0"; "0"; "0"; "0"; "0"; "0"];
  ["0"; "4.16333634234434e-17"; "0"; "5.55111512312578e-17"; "0"; "0"; "0"; "-2/36465"; "0"; "2/20995"; "0"; "-2/33915"; "0"; "2/156009"; "0"; "0"; "0"; "0"; "0"; "0"; "0"; "0"; "0"; "0"; "0"; "0"; "0"; "0"; "0"; "0"];
  ["0"; "2.22044604925031e-16"; "0"; "1.52655665885959e-16"; "0"; "0"; "0"; "0"; "-2/62985"; "0"; "2/33915"; "0"; "-2/52003"; "0"; "2/229425"; "0"; "0"; "0"; "0"; "0"; "0"; "0"; "0"; "0"; "0"; "0"; "0"; "0"; "0"; "0"];
  ["6.66133814775094e-16"; "-3.05311331771918e-16"; "-7.77156117237610e-16"; "-8.32667268468867e-17"; "0"; "0"; "0"; "0"; "0"; "-2/101745"; "0"; "2/52003"; "0"; "-2/76475"; "0"; "2/326025"; "0"; "0"; "0"; "0"; "0"; "0"; "0"; "0"; "0"; "0"; "0"; "0"; "0"; "0"];
  ["0"; "-4.44089209850063e-16"; "-1.77635683940025e-15"; "0"; "0"; "0"; "0"; "0"; "0"; "0"; "-2/156009"; "0"; "2/76475"; "0"; "-2/108675"; "0"; "2/450225"; "0"; "0"; "0"; "0"; "0"; "0"; "0"; "0"; "0"; "0"; "0"; "0"; "0"];
  ["-1.77635683940025e-15"; "-4.44089209850063e-16"; "-2.22044604925031e-15"; "8.88178419700125e-16"; "0"; "0"; "0"; "0"; "0"; "0"; "0"; "-2/229425"; "0"; "2/108675"; "0"; "-2/150075"; "0"; "2/606825"; "0"; "0"; "0"; "0"; "0"; "0"; "0"; "0"; "0"; "0"; "0"; "0"];
  ["-7.10542735760100e-15"; "1.77635683940025e-15"; "3.55271367880050e-15"; "-1.77635683940025e-15"; "0"; "0"; "0"; "0"; "0"; "0"; "0"; "0"; "-2/326025"; "0"; "2/150075"; "0"; "-2/202275"; "0"; "2/801009"; "0"; "0"; "0"; "0"; "0"; "0"; "0"; "0"; "0"; "0"; "0"];
  ["4.44089209850063e-15"; "-3.55271367880050e-15"; "7.10542735760100e-15"; "1.77635683940025e-15"; "0"; "0"; "0"; "0"; "0"; "0"; "0"; "0"; "0"; "-2/450225"; "0"; "2/202275"; "0"; "-2/267003"; "0"; "2/1038345"; "0"; "0"; "0"; "0"; "0"; "0"; "0"; "0"; "0"; "0"];
  ["0"; "0"; "2.84217094304040e-14"; "1.06581410364015e-14"; "0"; "0"; "0"; "0"; "0"; "0"; "0"; "0"; "0"; "0"; "-2/606825"; "0"; "2/267003"; "0"; "-2/346115"; "0"; "2/1324785"; "0"; "0"; "0"; "0"; "0"; "0"; "0"; "0"; "0"];
  ["-8.88178419700125e-14"; "2.84217094304040e-14"; "1.13686837721616e-13"; "-3.55271367880050e-14"; "0"; "0"; "0"; "0"; "0"; "0"; "0"; "0"; "0"; "0"; "0"; "-2/801009"; "0"; "2/346115"; "0"; "-2/441595"; "0"; "2/1666665"; "0"; "0"; "0"; "0"; "0"; "0"; "0"; "0"];
  ["0"; "-4.79616346638068e-14"; "0"; "-8.52651282912120e-14"; "0"; "0"; "0"; "0"; "0"; "0"; "0"; "0"; "0"; "0"; "0"; "0"; "-2/1038345"; "0"; "2/441595"; "0"; "-2/555555"; "0"; "2/2070705"; "0"; "0"; "0"; "0"; "0"; "0"; "0"];
  ["5.68434188608080e-14"; "-1.27897692436818e-13"; "2.62900812231237e-13"; "-7.10542735760100e-14"; "0"; "0"; "0"; "0"; "0"; "0"; "0"; "0"; "0"; "0"; "0"; "0"; "0"; "-2/1324785"; "0"; "2/555555"; "0"; "-2/690235"; "0"; "2/2544009"; "0"; "0"; "0"; "0"; "0"; "0"];
  ["-3.03757019537443e-13"; "7.59392548843607e-14"; "6.06292793747798e-13"; "8.52651282912120e-14"; "0"; "0"; "0"; "0"; "0"; "0"; "0"; "0"; "0"; "0"; "0"; "0"; "0"; "0"; "-2/1666665"; "0"; "2/690235"; "0"; "-2/848003"; "0"; "2/3094065"; "0"; "0"; "0"; "0"; "0"];
  ["0"; "-3.03165478832135e-13"; "-5.77315972805081e-15"; "1.51581872054329e-13"; "0"; "0"; "0"; "0"; "0"; "0"; "0"; "0"; "0"; "0"; "0"; "0"; "0"; "0"; "0"; "-2/2070705"; "0"; "2/848003"; "0"; "-2/1031355"; "0"; "2/3728745"; "0"; "0"; "0"; "0"];
  ["0"; "-1.21636034577932e-12"; "0"; "-1.21266885422244e-12"; "0"; "0"; "0"; "0"; "0"; "0"; "0"; "0"; "0"; "0"; "0"; "0"; "0"; "0"; "0"; "0"; "-2/2544009"; "0"; "2/1031355"; "0"; "-2/1242915"; "0"; "2/4456305"; "0"; "0"; "0"];
  ["2.61479726759717e-12"; "1.36424205265939e-12"; "2.84217094304040e-12"; "3.18323145620525e-12"; "0"; "0"; "0"; "0"; "0"; "0"; "0"; "0"; "0"; "0"; "0"; "0"; "0"; "0"; "0"; "0"; "0"; "-2/3094065"; "0"; "2/1242915"; "0"; "-2/1485435"; "0"; "2/5285385"; "0"; "0"];
  ["0"; "1.81898940354586e-12"; "-1.45519152283669e-11"; "1.59161572810262e-12"; "0"; "0"; "0"; "0"; "0"; "0"; "0"; "0"; "0"; "0"; "0"; "0"; "0"; "0"; "0"; "0"; "0"; "0"; "-2/3728745"; "0"; "2/1485435"; "0"; "-2/1761795"; "0"; "2/6225009"; "0"];
  ["0"; "-7.57912309301556e-12"; "0"; "6.97279213535129e-12"; "0"; "0"; "0"; "0"; "0"; "0"; "0"; "0"; "0"; "0"; "0"; "0"; "0"; "0"; "0"; "0"; "0"; "0"; "0"; "-2/4456305"; "0"; "2/1761795"; "0"; "-2/2075003"; "0"; "2/7284585"];
  ["1.16415321826935e-10"; "-2.91038304567337e-11"; "0"; "-2.84975099074103e-11"; "0"; "0"; "0"; "0"; "0"; "0"; "0"; "0"; "0"; "0"; "0"; "0"; "0"; "0"; "0"; "0"; "0"; "0"; "0"; "0"; "-2/5285385"; "0"; "2/2075003"; "0"; "-2/2428195"; "0"];
  ["0"; "0"; "0"; "0"; "0"; "0"; "0"; "0"; "0"; "0"; "0"; "0"; "0"; "0"; "0"; "0"; "0"; "0"; "0"; "0"; "0"; "0"; "0"; "0"; "0"; "-2/6225009"; "0"; "2/2428195"; "0"; "-2/2824635"];
  ["-4.65661287307739e-10"; "1.06714054259882e-10"; "0"; "1.16415321826935e-10"; "0"; "0"; "0"; "0"; "0"; "0"; "0"; "0"; "0"; "0"; "0"; "0"; "0"; "0"; "0"; "0"; "0"; "0"; "0"; "0"; "0"; "0"; "-2/7284585"; "0"; "2/2824635"; "0"]
].

(** _ii_F.py:1814-2715 *)
Definition ii_FXI_FXI : list (list string) := [
  ["0.600000000000000"; "0.0500000000000000"; "-0.600000000000000"; "0.0500000000000000"; "0"; "-0.0285714285714286"; "0"; "0"; "0"; "0"; "0"; "0"; "0"; "2.66453525910038e-15"; "0"; "1.42108547152020e-14"; "0"; "0"; "0"; "-7.10542735760100e-14"; "0"; "0"; "0"; "0"; "0"; "-1.45661260830821e-12"; "0"; "0"; "0"; "0"];
  ["0.0500000000000000"; "0.0666666666666667"; "-0.0500000000000000"; "-0.0166666666666667"; "0.0333333333333333"; "-0.0142857142857143"; "0"; "-1.38777878078145e-17"; "4.16333634234434e-17"; "-5.55111512312578e-17"; "-1.45716771982052e-16"; "0"; "0"; "-3.33066907387547e-16"; "-8.88178419700125e-16"; "0"; "-3.55271367880050e-15"; "0"; "0"; "-8.52651282912120e-14"; "1.56319401867222e-13"; "-8.52651282912120e-14"; "3.03163744108659e-13"; "-9.09494701772928e-13"; "0"; "0"; "1.21265844588159e-12"; "0"; "0"; "0"];
  ["-0.600000000000000"; "-0.0500000000000000"; "0.600000000000000"; "-0.0500000000000000"; "0"; "0.0285714285714286"; "0"; "0"; "0"; "0"; "0"; "0"; "0"; "2.66453525910038e-15"; "0"; "1.15463194561016e-14"; "0"; "0"; "0"; "-7.10542735760100e-14"; "0"; "0"; "0"; "0"; "0"; "0"; "0"; "0"; "0"; "0"];
  ["0.0500000000000000"; "-0.0166666666666667"; "-0.0500000000000000"; "0.0666666666666667"; "-0.0333333333333333"; "-0.0142857142857143"; "0"; "0"; "3.46944695195361e-17"; "-1.11022302462516e-16"; "-1.11022302462516e-16"; "0"; "0"; "4.44089209850063e-16"; "8.88178419700125e-16"; "0"; "-3.55271367880050e-15"; "0"; "0"; "2.48689957516035e-14"; "1.51583606777805e-13"; "-8.52651282912120e-14"; "3.12638803734444e-13"; "0"; "0"; "0"; "0"; "0"; "2.42532036121013e-12"; "1.16415321826935e-10"];
  ["0"; "0.0333333333333333"; "0"; "-0.0333333333333333"; "4/105"; "0"; "-2/315"; "0"; "0"; "0"; "0"; "0"; "0"; "0"; "0"; "0"; "0"; "0"; "0"; "0"; "0"; "0"; "0"; "0"; "0"; "0"; "0"; "0"; "0"; "0"];
  ["-0.0285714285714286"; "-0.0142857142857143"; "0.0285714285714286"; "-0.0142857142857143"; "0"; "4/315"; "0"; "-2/693"; "0"; "0"; "0"; "0"; "0"; "0"; "0"; "0"; "0"; "0"; "0"; "0"; "0"; "0"; "0"; "0"; "0"; "0"; "0"; "0"; "0"; "0"];
  ["0"; "0"; "0"; "0"; "-2/315"; "0"; "4/693"; "0"; "-2/1287"; "0"; "0"; "0"; "0"; "0"; "0"; "0"; "0"; "0"; "0"; "0"; "0"; "0"; "0"; "0"; "0"; "0"; "0"; "0"; "0"; "0"];
  ["0"; "-1.38777878078145e-17"; "0"; "0"; "0"; "-2/693"; "0"; "4/1287"; "0"; "-2/2145"; "0"; "0"; "0"; "0"; "0"; "0"; "0"; "0"; "0"; "0"; "0"; "0"; "0"; "0"; "0"; "0"; "0"; "0"; "0"; "0"];
  ["0"; "4.16333634234434e-17"; "0"; "3.46944695195361e-17"; "0"; "0"; "-2/1287"; "0"; "4/2145"; "0"; "-2/3315"; "0"; "0"; "0"; "0"; "0"; "0"; "0"; "0"; "0"; "0"; "0"; "0"; "0"; "0"; "0"; "0"; "0"; "0"; "0"];
  ["0"; "-5.55111512312578e-17"; "0"; "-1.11022302462516e-16"; "0"; "0"; "0"; "-2/2145"; "0"; "4/3315"; "0"; "-2/4845"; "0"; "0"; "0"; "0"; "0"; "0"; "0"; "0"; "0"; "0"; "0"; "0"; "0"; "0"; "0"; "0"; "0"; "0"];
  ["0"; "-1.45716771982052e-16"; "0"; "-1.11022302462516e-16"; "0"; "0"; "0"; "0"; "-2/3315"; "0"; "4/4845"; "0"; "-2/6783"; "0"; "0"; "0"; "0"; "0"; "0"; "0"; "0"; "0"; "0"; "0"; "0"; "0"; "0"; "0"; "0"; "0"];
  ["0"; "0"; "0"; "0"; "0"; "0"; "0"; "0"; "0"; "-2/4845"; "0"; "4/6783"; "0"; "-2/9177"; "0"; "0"; "0"; "0"; "0"; "0"; "0"; "0"; "0"; "0"; "0"; "0"; "0"; "0"; "0"; "0"];
  ["0"; "0"; "0"; "0"; "0"; "0"; "0"; "0"; "0"; "0"; "-2/6783"; "0"; "4/9177"; "0"; "-2/12075"; "0"; "0"; "0"; "0"; "0"; "0"; "0"; "0"; "0"; "0"; "0"; "0"; "0"; "0"; "0"];
  ["2.66453525910038e-15"; "-3.33066907387547e-16"; "2.66453525910038e-15"; "4.44089209850063e-16"; "0"; "0"; "0"; "0"; "0"; "0"; "0"; "-2/9177"; "0"; "4/12075"; "0"; "-2/15525"; "0"; "0"; "0"; "0"; "0"; "0"; "0"; "0"; "0"; "0"; "0"; "0"; "0"; "0"];
  ["0"; "-8.88178419700125e-16"; "0"; "8.88178419700125e-16"; "0"; "0"; "0"; "0"; "0"; "0"; "0"; "0"; "-2/12075"; "0"; "4/15525"; "0"; "-2/19575"; "0"; "0"; "0"; "0"; "0"; "0"; "0"; "0"; "0"; "0"; "0"; "0"; "0"];
  ["1.42108547152020e-14"; "0"; "1.15463194561016e-14"; "0"; "0"; "0"; "0"; "0"; "0"; "0"; "0"; "0"; "0"; "-2/15525"; "0"; "4/19575"; "0"; "-2/24273"; "0"; "0"; "0"; "0"; "0"; "0"; "0"; "0"; "0"; "0"; "0"; "0"];
  ["0"; "-3.55271367880050e-15"; "0"; "-3.55271367880050e-15"; "0"; "0"; "0"; "0"; "0"; "0"; "0"; "0"; "0"; "0"; "-2/19575"; "0"; "4/24273"; "0"; "-2/29667"; "0"; "0"; "0"; "0"; "0"; "0"; "0"; "0"; "0"; "0"; "0"];
  ["0"; "0"; "0"; "0"; "0"; "0"; "0"; "0"; "0"; "0"; "0"; "0"; "0"; "0"; "0"; "-2/24273"; "0"; "4/29667"; "0"; "-2/35805"; "0"; "0"; "0"; "0"; "0"; "0"; "0"; "0"; "0"; "0"];
  ["0"; "0"; "0"; "0"; "0"; "0"; "0"; "0"; "0"; "0"; "0"; "0"; "0"; "0"; "0"; "0"; "-2/29667"; "0"; "4/35805"; "0"; "-2/42735"; "0"; "0"; "0"; "0"; "0"; "0"; "0"; "0"; "0"];
  ["-7.10542735760100e-14"; "-8.52651282912120e-14"; "-7.10542735760100e-14"; "2.48689957516035e-14"; "0"; "0"; "0"; "0"; "0"; "0"; "0"; "0"; "0"; "0"; "0"; "0"; "0"; "-2/35805"; "0"; "4/42735"; "0"; "-2/50505"; "0"; "0"; "0"; "0"; "0"; "0"; "0"; "0"];
  ["0"; "1.56319401867222e-13"; "0"; "1.51583606777805e-13"; "0"; "0"; "0"; "0"; "0"; "0"; "0"; "0"; "0"; "0"; "0"; "0"; "0"; "0"; "-2/42735"; "0"; "4/50505"; "0"; "-2/59163"; "0"; "0"; "0"; "0"; "0"; "0"; "0"];
  ["0"; "-8.52651282912120e-14"; "0"; "-8.52651282912120e-14"; "0"; "0"; "0"; "0"; "0"; "0"; "0"; "0"; "0"; "0"; "0"; "0"; "0"; "0"; "0"; "-2/50505"; "0"; "4/59163"; "0"; "-2/68757"; "0"; "0"; "0"; "0"; "0"; "0"];
  ["0"; "3.03163744108659e-13"; "0"; "3.12638803734444e-13"; "0"; "0"; "0"; "0"; "0"; "0"; "0"; "0"; "0"; "0"; "0"; "0"; "0"; "0"; "0"; "0"; "-2/59163"; "0"; "4/68757"; "0"; "-2/79335"; "0"; "0"; "0"; "0"; "0"];
  ["0"; "-9.09494701772928e-13"; "0"; "0"; "0"; "0"; "0"; "0"; "0"; "0"; "0"; "0"; "0"; "0"; "0"; "0"; "0"; "0"; "0"; "0"; "0"; "-2/68757"; "0"; "4/79335"; "0"; "-2/90945"; "0"; "0"; "0"; "0"];
  ["0"; "0"; "0"; "0"; "0"; "0"; "0"; "0"; "0"; "0"; "0"; "0"; "0"; "0"; "0"; "0"; "0"; "0"; "0"; "0"; "0"; "0"; "-2/79335"; "0"; "4/90945"; "0"; "-2/103635"; "0"; "0"; "0"];
  ["-1.45661260830821e-12"; "0"; "0"; "0"; "0"; "0"; "0"; "0"; "0"; "0"; "0"; "0"; "0"; "0"; "0"; "0"; "0"; "0"; "0"; "0"; "0"; "0"; "0"; "-2/90945"; "0"; "4/103635"; "0"; "-2/117453"; "0"; "0"];
  ["0"; "1.21265844588159e-12"; "0"; "0"; "0"; "0"; "0"; "0"; "0"; "0"; "0"; "0"; "0"; "0"; "0"; "0"; "0"; "0"; "0"; "0"; "0"; "0"; "0"; "0"; "-2/103635"; "0"; "4/117453"; "0"; "-2/132447"; "0"];
  ["0"; "0"; "0"; "0"; "0"; "0"; "0"; "0"; "0"; "0"; "0"; "0"; "0"; "0"; "0"; "0"; "0"; "0"; "0"; "0"; "0"; "0"; "0"; "0"; "0"; "-2/117453"; "0"; "4/132447"; "0"; "-2/148665"];
  ["0"; "0"; "0"; "2.42532036121013e-12"; "0"; "0"; "0"; "0"; "0"; "0"; "0"; "0"; "0"; "0"; "0"; "0"; "0"; "0"; "0"; "0"; "0"; "0"; "0"; "0"; "0"; "0"; "-2/132447"; "0"; "4/148665"; "0"];
  ["0"; "0"; "0"; "1.16415321826935e-10"; "0"; "0"; "0"; "0"; "0"; "0"; "0"; "0"; "0"; "0"; "0"; "0"; "0"; "0"; "0"; "0"; "0"; "0"; "0"; "0"; "0"; "0"; "0"; "-2/148665"; "0"; "4/166155"]
].

(** _ii_F.py:2718-3619 *)
Definition ii_FXIXI_F : list (list string) := [
  ["-0.600000000000000"; "-0.0500000000000000"; "0.600000000000000"; "-0.0500000000000000"; "0"; "0.0285714285714286"; "0"; "0"; "0"; "0"; "0"; "0"; "0"; "-1.66533453693773e-16"; "0"; "-8.88178419700125e-16"; "0"; "0"; "0"; "7.99360577730113e-15"; "0"; "0"; "0"; "0"; "0"; "9.09272657168003e-14"; "0"; "0"; "0"; "0"];
  ["-0.550000000000000"; "-0.0666666666666667"; "0.0500000000000000"; "0.0166666666666667"; "-0.0333333333333333"; "0.0142857142857143"; "-1.04083408558608e-17"; "0"; "-8.67361737988404e-18"; "1.38777878078145e-17"; "1.04083408558608e-17"; "0"; "0"; "-1.94289029309402e-16"; "-5.55111512312578e-17"; "-8.88178419700125e-16"; "-4.44089209850063e-16"; "-1.77635683940025e-15"; "0"; "3.55271367880050e-15"; "-8.88178419700125e-15"; "-2.84217094304040e-14"; "-1.89483845280947e-14"; "1.13686837721616e-13"; "-7.64943663966733e-14"; "4.55191440096314e-14"; "2.36789754470834e-15"; "0"; "0"; "0"];
  ["0.600000000000000"; "0.0500000000000000"; "-0.600000000000000"; "0.0500000000000000"; "0"; "-0.0285714285714286"; "0"; "0"; "0"; "0"; "0"; "0"; "0"; "-1.66533453693773e-16"; "0"; "-7.21644966006352e-16"; "0"; "0"; "0"; "7.99360577730113e-15"; "0"; "0"; "0"; "0"; "0"; "0"; "0"; "0"; "0"; "0"];
  ["-0.0500000000000000"; "0.0166666666666667"; "0.550000000000000"; "-0.0666666666666667"; "0.0333333333333333"; "0.0142857142857143"; "-1.73472347597681e-18"; "0"; "-1.04083408558608e-17"; "0"; "1.38777878078145e-17"; "0"; "0"; "-1.11022302462516e-16"; "0"; "-8.88178419700125e-16"; "-2.22044604925031e-16"; "0"; "8.88178419700125e-16"; "1.06581410364015e-14"; "-9.47332490230934e-15"; "-2.84217094304040e-14"; "-1.77635683940025e-14"; "0"; "1.51878509768721e-13"; "-4.09283718028064e-13"; "0"; "0"; "7.57918033889027e-14"; "-7.27595761418343e-12"];
  ["0"; "-0.0333333333333334"; "0"; "0.0333333333333334"; "-4/105"; "0"; "2/315"; "0"; "0"; "0"; "0"; "0"; "0"; "0"; "0"; "0"; "0"; "0"; "0"; "0"; "0"; "0"; "0"; "0"; "0"; "0"; "0"; "0"; "0"; "0"];
  ["0.0285714285714286"; "0.0142857142857143"; "-0.0285714285714287"; "0.0142857142857143"; "0"; "-4/315"; "0"; "2/693"; "0"; "0"; "0"; "0"; "0"; "0"; "0"; "0"; "0"; "0"; "0"; "0"; "0"; "0"; "0"; "0"; "0"; "0"; "0"; "0"; "0"; "0"];
  ["0"; "0"; "0"; "0"; "2/315"; "0"; "-4/693"; "0"; "2/1287"; "0"; "0"; "0"; "0"; "0"; "0"; "0"; "0"; "0"; "0"; "0"; "0"; "0"; "0"; "0"; "0"; "0"; "0"; "0"; "0"; "0"];
  ["0"; "5.55111512312578e-17"; "0"; "0"; "0"; "2/693"; "0"; "-4/1287"; "0"; "2/2145"; "0"; "0"; "0"; "0"; "0"; "0"; "0"; "0"; "0"; "0"; "0"; "0"; "0"; "0"; "0"; "0"; "0"; "0"; "0"; "0"];
  ["4.44089209850063e-16"; "-1.66533453693773e-16"; "0"; "-1.11022302462516e-16"; "0"; "0"; "2/1287"; "0"; "-4/2145"; "0"; "2/3315"; "0"; "0"; "0"; "0"; "0"; "0"; "0"; "0"; "0"; "0"; "0"; "0"; "0"; "0"; "0"; "0"; "0"; "0"; "0"];
  ["0"; "0"; "0"; "-1.11022302462516e-16"; "0"; "0"; "0"; "2/2145"; "0"; "-4/3315"; "0"; "2/4845"; "0"; "0"; "0"; "0"; "0"; "0"; "0"; "0"; "0"; "0"; "0"; "0"; "0"; "0"; "0"; "0"; "0"; "0"];
  ["0"; "-8.88178419700125e-16"; "1.77635683940025e-15"; "6.66133814775094e-16"; "0"; "0"; "0"; "0"; "2/3315"; "0"; "-4/4845"; "0"; "2/6783"; "0"; "0"; "0"; "0"; "0"; "0"; "0"; "0"; "0"; "0"; "0"; "0"; "0"; "0"; "0"; "0"; "0"];
  ["0"; "0"; "0"; "0"; "0"; "0"; "0"; "0"; "0"; "2/4845"; "0"; "-4/6783"; "0"; "2/9177"; "0"; "0"; "0"; "0"; "0"; "0"; "0"; "0"; "0"; "0"; "0"; "0"; "0"; "0"; "0"; "0"];
  ["0"; "-1.77635683940025e-15"; "0"; "-1.77635683940025e-15"; "0"; "0"; "0"; "0"; "0"; "0"; "2/6783"; "0"; "-4/9177"; "0"; "2/12075"; "0"; "0"; "0"; "0"; "0"; "0"; "0"; "0"; "0"; "0"; "0"; "0"; "0"; "0"; "0"];
  ["1.06581410364015e-14"; "-1.33226762955019e-15"; "1.06581410364015e-14"; "3.55271367880050e-15"; "0"; "0"; "0"; "0"; "0"; "0"; "0"; "2/9177"; "0"; "-4/12075"; "0"; "2/15525"; "0"; "0"; "0"; "0"; "0"; "0"; "0"; "0"; "0"; "0"; "0"; "0"; "0"; "0"];
  ["0"; "2.66453525910038e-14"; "0"; "-1.24344978758018e-14"; "0"; "0"; "0"; "0"; "0"; "0"; "0"; "0"; "2/12075"; "0"; "-4/15525"; "0"; "2/19575"; "0"; "0"; "0"; "0"; "0"; "0"; "0"; "0"; "0"; "0"; "0"; "0"; "0"];
  ["5.68434188608080e-14"; "-1.42108547152020e-14"; "4.61852778244065e-14"; "-1.42108547152020e-14"; "0"; "0"; "0"; "0"; "0"; "0"; "0"; "0"; "0"; "2/15525"; "0"; "-4/19575"; "0"; "2/24273"; "0"; "0"; "0"; "0"; "0"; "0"; "0"; "0"; "0"; "0"; "0"; "0"];
  ["0"; "0"; "0"; "-5.68434188608080e-14"; "0"; "0"; "0"; "0"; "0"; "0"; "0"; "0"; "0"; "0"; "2/19575"; "0"; "-4/24273"; "0"; "2/29667"; "0"; "0"; "0"; "0"; "0"; "0"; "0"; "0"; "0"; "0"; "0"];
  ["0"; "-5.68434188608080e-14"; "0"; "0"; "0"; "0"; "0"; "0"; "0"; "0"; "0"; "0"; "0"; "0"; "0"; "2/24273"; "0"; "-4/29667"; "0"; "2/35805"; "0"; "0"; "0"; "0"; "0"; "0"; "0"; "0"; "0"; "0"];
  ["0"; "0"; "0"; "0"; "0"; "0"; "0"; "0"; "0"; "0"; "0"; "0"; "0"; "0"; "0"; "0"; "2/29667"; "0"; "-4/35805"; "0"; "2/42735"; "0"; "0"; "0"; "0"; "0"; "0"; "0"; "0"; "0"];
  ["-1.25055521493778e-12"; "0"; "-1.30739863379858e-12"; "2.27373675443232e-13"; "0"; "0"; "0"; "0"; "0"; "0"; "0"; "0"; "0"; "0"; "0"; "0"; "0"; "2/35805"; "0"; "-4/42735"; "0"; "2/50505"; "0"; "0"; "0"; "0"; "0"; "0"; "0"; "0"];
  ["0"; "1.13686837721616e-12"; "0"; "1.21280763210052e-12"; "0"; "0"; "0"; "0"; "0"; "0"; "0"; "0"; "0"; "0"; "0"; "0"; "0"; "0"; "2/42735"; "0"; "-4/50505"; "0"; "2/59163"; "0"; "0"; "0"; "0"; "0"; "0"; "0"];
  ["0"; "1.13686837721616e-12"; "0"; "1.13686837721616e-12"; "0"; "0"; "0"; "0"; "0"; "0"; "0"; "0"; "0"; "0"; "0"; "0"; "0"; "0"; "0"; "2/50505"; "0"; "-4/59163"; "0"; "2/68757"; "0"; "0"; "0"; "0"; "0"; "0"];
  ["0"; "9.70112878917462e-12"; "0"; "2.27373675443232e-12"; "0"; "0"; "0"; "0"; "0"; "0"; "0"; "0"; "0"; "0"; "0"; "0"; "0"; "0"; "0"; "0"; "2/59163"; "0"; "-4/68757"; "0"; "2/79335"; "0"; "0"; "0"; "0"; "0"];
  ["0"; "-1.45519152283669e-11"; "3.69482222595252e-13"; "0"; "0"; "0"; "0"; "0"; "0"; "0"; "0"; "0"; "0"; "0"; "0"; "0"; "0"; "0"; "0"; "0"; "0"; "2/68757"; "0"; "-4/79335"; "0"; "2/90945"; "0"; "0"; "0"; "0"];
  ["0"; "2.89190893454361e-11"; "0"; "2.91038304567337e-11"; "0"; "0"; "0"; "0"; "0"; "0"; "0"; "0"; "0"; "0"; "0"; "0"; "0"; "0"; "0"; "0"; "0"; "0"; "2/79335"; "0"; "-4/90945"; "0"; "2/103635"; "0"; "0"; "0"];
  ["0"; "-2.89901436190121e-12"; "0"; "5.52979884105298e-11"; "0"; "0"; "0"; "0"; "0"; "0"; "0"; "0"; "0"; "0"; "0"; "0"; "0"; "0"; "0"; "0"; "0"; "0"; "0"; "2/90945"; "0"; "-4/103635"; "0"; "2/117453"; "0"; "0"];
  ["9.31322574615479e-10"; "2.32830643653870e-10"; "0"; "2.32830643653870e-10"; "0"; "0"; "0"; "0"; "0"; "0"; "0"; "0"; "0"; "0"; "0"; "0"; "0"; "0"; "0"; "0"; "0"; "0"; "0"; "0"; "2/103635"; "0"; "-4/117453"; "0"; "2/132447"; "0"];
  ["0"; "0"; "0"; "0"; "0"; "0"; "0"; "0"; "0"; "0"; "0"; "0"; "0"; "0"; "0"; "0"; "0"; "0"; "0"; "0"; "0"; "0"; "0"; "0"; "0"; "2/117453"; "0"; "-4/132447"; "0"; "2/148665"];
  ["-3.72529029846191e-9"; "4.65661287307739e-10"; "0"; "0"; "0"; "0"; "0"; "0"; "0"; "0"; "0"; "0"; "0"; "0"; "0"; "0"; "0"; "0"; "0"; "0"; "0"; "0"; "0"; "0"; "0"; "0"; "2/132447"; "0"; "-4/148665"; "0"];
  ["-7.45058059692383e-9"; "0"; "0"; "-9.31322574615479e-10"; "0"; "0"; "0"; "0"; "0"; "0"; "0"; "0"; "0"; "0"; "0"; "0"; "0"; "0"; "0"; "0"; "0"; "0"; "0"; "0"; "0"; "0"; "0"; "2/148665"; "0"; "-4/166155"]
].

(** _ii_F.py:3622-4523 *)
Definition ii_FXIXI_FXI : list (list string) := [
  ["0"; "-0.250000000000000"; "0"; "0.250000000000000"; "-0.200000000000000"; "0"; "0"; "0"; "0"; "0"; "0"; "0"; "0"; "0"; "5.77315972805081e-15"; "0"; "0"; "0"; "0"; "0"; "0"; "0"; "0"; "0"; "0"; "0"; "0"; "0"; "0"; "0"];
  ["0.250000000000000"; "-0.125000000000000"; "-0.250000000000000"; "0.125000000000000"; "-0.100000000000000"; "0"; "0"; "0"; "0"; "8.32667268468867e-17"; "0"; "0"; "0"; "0"; "1.11022302462516e-15"; "4.88498130835069e-15"; "0"; "0"; "5.68434188608080e-14"; "0"; "0"; "-1.42108547152020e-13"; "0"; "0"; "-3.63797880709171e-12"; "0"; "0"; "1.51600954012565e-13"; "0"; "2.32830643653870e-10"];
  ["0"; "0.250000000000000"; "0"; "-0.250000000000000"; "0.200000000000000"; "0"; "0"; "0"; "0"; "0"; "0"; "0"; "0"; "0"; "5.32907051820075e-15"; "0"; "0"; "0"; "0"; "0"; "0"; "0"; "0"; "0"; "0"; "0"; "0"; "0"; "0"; "0"];
  ["-0.250000000000000"; "-0.125000000000000"; "0.250000000000000"; "0.125000000000000"; "-0.100000000000000"; "0"; "-2.77555756156289e-17"; "0"; "0"; "8.32667268468867e-17"; "0"; "0"; "0"; "0"; "1.11022302462516e-15"; "-3.55271367880050e-15"; "0"; "0"; "0"; "0"; "0"; "-1.51600954012565e-13"; "0"; "0"; "0"; "0"; "0"; "0"; "0"; "2.32830643653870e-10"];
  ["0.200000000000000"; "0.100000000000000"; "-0.200000000000000"; "0.100000000000000"; "0"; "-2/35"; "0"; "0"; "0"; "0"; "0"; "0"; "0"; "0"; "0"; "0"; "0"; "0"; "0"; "0"; "0"; "0"; "0"; "0"; "0"; "0"; "0"; "0"; "0"; "0"];
  ["0"; "0"; "0"; "0"; "2/35"; "0"; "-2/63"; "0"; "0"; "0"; "0"; "0"; "0"; "0"; "0"; "0"; "0"; "0"; "0"; "0"; "0"; "0"; "0"; "0"; "0"; "0"; "0"; "0"; "0"; "0"];
  ["0"; "0"; "0"; "0"; "0"; "2/63"; "0"; "-2/99"; "0"; "0"; "0"; "0"; "0"; "0"; "0"; "0"; "0"; "0"; "0"; "0"; "0"; "0"; "0"; "0"; "0"; "0"; "0"; "0"; "0"; "0"];
  ["0"; "0"; "0"; "0"; "0"; "0"; "2/99"; "0"; "-2/143"; "0"; "0"; "0"; "0"; "0"; "0"; "0"; "0"; "0"; "0"; "0"; "0"; "0"; "0"; "0"; "0"; "0"; "0"; "0"; "0"; "0"];
  ["0"; "0"; "0"; "0"; "0"; "0"; "0"; "2/143"; "0"; "-2/195"; "0"; "0"; "0"; "0"; "0"; "0"; "0"; "0"; "0"; "0"; "0"; "0"; "0"; "0"; "0"; "0"; "0"; "0"; "0"; "0"];
  ["0"; "6.66133814775094e-16"; "0"; "6.10622663543836e-16"; "0"; "0"; "0"; "0"; "2/195"; "0"; "-2/255"; "0"; "0"; "0"; "0"; "0"; "0"; "0"; "0"; "0"; "0"; "0"; "0"; "0"; "0"; "0"; "0"; "0"; "0"; "0"];
  ["0"; "0"; "0"; "0"; "0"; "0"; "0"; "0"; "0"; "2/255"; "0"; "-2/323"; "0"; "0"; "0"; "0"; "0"; "0"; "0"; "0"; "0"; "0"; "0"; "0"; "0"; "0"; "0"; "0"; "0"; "0"];
  ["0"; "0"; "0"; "0"; "0"; "0"; "0"; "0"; "0"; "0"; "2/323"; "0"; "-2/399"; "0"; "0"; "0"; "0"; "0"; "0"; "0"; "0"; "0"; "0"; "0"; "0"; "0"; "0"; "0"; "0"; "0"];
  ["0"; "0"; "0"; "0"; "0"; "0"; "0"; "0"; "0"; "0"; "0"; "2/399"; "0"; "-2/483"; "0"; "0"; "0"; "0"; "0"; "0"; "0"; "0"; "0"; "0"; "0"; "0"; "0"; "0"; "0"; "0"];
  ["0"; "0"; "0"; "0"; "0"; "0"; "0"; "0"; "0"; "0"; "0"; "0"; "2/483"; "0"; "-2/575"; "0"; "0"; "0"; "0"; "0"; "0"; "0"; "0"; "0"; "0"; "0"; "0"; "0"; "0"; "0"];
  ["2.84217094304040e-14"; "1.06581410364015e-14"; "2.84217094304040e-14"; "1.06581410364015e-14"; "0"; "0"; "0"; "0"; "0"; "0"; "0"; "0"; "0"; "2/575"; "0"; "-2/675"; "0"; "0"; "0"; "0"; "0"; "0"; "0"; "0"; "0"; "0"; "0"; "0"; "0"; "0"];
  ["0"; "3.55271367880050e-14"; "0"; "0"; "0"; "0"; "0"; "0"; "0"; "0"; "0"; "0"; "0"; "0"; "2/675"; "0"; "-2/783"; "0"; "0"; "0"; "0"; "0"; "0"; "0"; "0"; "0"; "0"; "0"; "0"; "0"];
  ["0"; "0"; "0"; "0"; "0"; "0"; "0"; "0"; "0"; "0"; "0"; "0"; "0"; "0"; "0"; "2/783"; "0"; "-2/899"; "0"; "0"; "0"; "0"; "0"; "0"; "0"; "0"; "0"; "0"; "0"; "0"];
  ["0"; "0"; "0"; "0"; "0"; "0"; "0"; "0"; "0"; "0"; "0"; "0"; "0"; "0"; "0"; "0"; "2/899"; "0"; "-2/1023"; "0"; "0"; "0"; "0"; "0"; "0"; "0"; "0"; "0"; "0"; "0"];
  ["0"; "4.54747350886464e-13"; "0"; "0"; "0"; "0"; "0"; "0"; "0"; "0"; "0"; "0"; "0"; "0"; "0"; "0"; "0"; "2/1023"; "0"; "-2/1155"; "0"; "0"; "0"; "0"; "0"; "0"; "0"; "0"; "0"; "0"];
  ["0"; "0"; "0"; "0"; "0"; "0"; "0"; "0"; "0"; "0"; "0"; "0"; "0"; "0"; "0"; "0"; "0"; "0"; "2/1155"; "0"; "-2/1295"; "0"; "0"; "0"; "0"; "0"; "0"; "0"; "0"; "0"];
  ["0"; "0"; "0"; "0"; "0"; "0"; "0"; "0"; "0"; "0"; "0"; "0"; "0"; "0"; "0"; "0"; "0"; "0"; "0"; "2/1295"; "0"; "-2/1443"; "0"; "0"; "0"; "0"; "0"; "0"; "0"; "0"];
  ["0"; "2.50111042987555e-12"; "0"; "2.42528219729365e-12"; "0"; "0"; "0"; "0"; "0"; "0"; "0"; "0"; "0"; "0"; "0"; "0"; "0"; "0"; "0"; "0"; "2/1443"; "0"; "-2/1599"; "0"; "0"; "0"; "0"; "0"; "0"; "0"];
  ["0"; "0"; "0"; "0"; "0"; "0"; "0"; "0"; "0"; "0"; "0"; "0"; "0"; "0"; "0"; "0"; "0"; "0"; "0"; "0"; "0"; "2/1599"; "0"; "-2/1763"; "0"; "0"; "0"; "0"; "0"; "0"];
  ["0"; "0"; "0"; "0"; "0"; "0"; "0"; "0"; "0"; "0"; "0"; "0"; "0"; "0"; "0"; "0"; "0"; "0"; "0"; "0"; "0"; "0"; "2/1763"; "0"; "-2/1935"; "0"; "0"; "0"; "0"; "0"];
  ["0"; "2.91038304567337e-11"; "0"; "0"; "0"; "0"; "0"; "0"; "0"; "0"; "0"; "0"; "0"; "0"; "0"; "0"; "0"; "0"; "0"; "0"; "0"; "0"; "0"; "2/1935"; "0"; "-2/2115"; "0"; "0"; "0"; "0"];
  ["0"; "0"; "0"; "0"; "0"; "0"; "0"; "0"; "0"; "0"; "0"; "0"; "0"; "0"; "0"; "0"; "0"; "0"; "0"; "0"; "0"; "0"; "0"; "0"; "2/2115"; "0"; "-2/2303"; "0"; "0"; "0"];
  ["0"; "0"; "0"; "0"; "0"; "0"; "0"; "0"; "0"; "0"; "0"; "0"; "0"; "0"; "0"; "0"; "0"; "0"; "0"; "0"; "0"; "0"; "0"; "0"; "0"; "2/2303"; "0"; "-2/2499"; "0"; "0"];
  ["0"; "4.85067541688977e-12"; "0"; "0"; "0"; "0"; "0"; "0"; "0"; "0"; "0"; "0"; "0"; "0"; "0"; "0"; "0"; "0"; "0"; "0"; "0"; "0"; "0"; "0"; "0"; "0"; "2/2499"; "0"; "-2/2703"; "0"];
  ["0"; "0"; "-3.72529029846191e-9"; "0"; "0"; "0"; "0"; "0"; "0"; "0"; "0"; "0"; "0"; "0"; "0"; "0"; "0"; "0"; "0"; "0"; "0"; "0"; "0"; "0"; "0"; "0"; "0"; "2/2703"; "0"; "-2/2915"];
  ["0"; "-3.72529029846191e-9"; "0"; "-3.72529029846191e-9"; "0"; "0"; "0"; "0"; "0"; "0"; "0"; "0"; "0"; "0"; "0"; "0"; "0"; "0"; "0"; "0"; "0"; "0"; "0"; "0"; "0"; "0"; "0"; "0"; "2/2915"; "0"]
].

(** _ii_F.py:4526-5427 *)
Definition ii_FXIXI_FXIXI : list (list string) := [
  ["1.50000000000000"; "0.750000000000000"; "-1.50000000000000"; "0.750000000000000"; "0"; "0"; "0"; "0"; "0"; "0"; "0"; "0"; "0"; "0"; "0"; "0"; "0"; "0"; "0"; "0"; "0"; "0"; "0"; "0"; "0"; "0"; "0"; "0"; "0"; "7.45058059692383e-9"];
  ["0.750000000000000"; "0.500000000000000"; "-0.750000000000000"; "0.250000000000000"; "0"; "0"; "0"; "0"; "0"; "0"; "0"; "0"; "0"; "0"; "0"; "0"; "0"; "0"; "0"; "0"; "0"; "0"; "0"; "0"; "0"; "0"; "0"; "0"; "0"; "3.72529029846191e-9"];
  ["-1.50000000000000"; "-0.750000000000000"; "1.50000000000000"; "-0.750000000000000"; "0"; "0"; "0"; "0"; "0"; "0"; "0"; "0"; "0"; "0"; "0"; "0"; "0"; "0"; "0"; "0"; "0"; "0"; "0"; "0"; "0"; "0"; "0"; "0"; "0"; "0"];
  ["0.750000000000000"; "0.250000000000000"; "-0.750000000000000"; "0.500000000000000"; "0"; "0"; "0"; "0"; "0"; "0"; "0"; "0"; "0"; "0"; "0"; "0"; "0"; "0"; "0"; "0"; "0"; "0"; "0"; "0"; "0"; "0"; "0"; "0"; "0"; "3.72529029846191e-9"];
  ["0"; "0"; "0"; "0"; "2/5"; "0"; "0"; "0"; "0"; "0"; "0"; "0"; "0"; "0"; "0"; "0"; "0"; "0"; "0"; "0"; "0"; "0"; "0"; "0"; "0"; "0"; "0"; "0"; "0"; "0"];
  ["0"; "0"; "0"; "0"; "0"; "2/7"; "0"; "0"; "0"; "0"; "0"; "0"; "0"; "0"; "0"; "0"; "0"; "0"; "0"; "0"; "0"; "0"; "0"; "0"; "0"; "0"; "0"; "0"; "0"; "0"];
  ["0"; "0"; "0"; "0"; "0"; "0"; "2/9"; "0"; "0"; "0"; "0"; "0"; "0"; "0"; "0"; "0"; "0"; "0"; "0"; "0"; "0"; "0"; "0"; "0"; "0"; "0"; "0"; "0"; "0"; "0"];
  ["0"; "0"; "0"; "0"; "0"; "0"; "0"; "2/11"; "0"; "0"; "0"; "0"; "0"; "0"; "0"; "0"; "0"; "0"; "0"; "0"; "0"; "0"; "0"; "0"; "0"; "0"; "0"; "0"; "0"; "0"];
  ["0"; "0"; "0"; "0"; "0"; "0"; "0"; "0"; "2/13"; "0"; "0"; "0"; "0"; "0"; "0"; "0"; "0"; "0"; "0"; "0"; "0"; "0"; "0"; "0"; "0"; "0"; "0"; "0"; "0"; "0"];
  ["0"; "0"; "0"; "0"; "0"; "0"; "0"; "0"; "0"; "2/15"; "0"; "0"; "0"; "0"; "0"; "0"; "0"; "0"; "0"; "0"; "0"; "0"; "0"; "0"; "0"; "0"; "0"; "0"; "0"; "0"];
  ["0"; "0"; "0"; "0"; "0"; "0"; "0"; "0"; "0"; "0"; "2/17"; "0"; "0"; "0"; "0"; "0"; "0"; "0"; "0"; "0"; "0"; "0"; "0"; "0"; "0"; "0"; "0"; "0"; "0"; "0"];
  ["0"; "0"; "0"; "0"; "0"; "0"; "0"; "0"; "0"; "0"; "0"; "2/19"; "0"; "0"; "0"; "0"; "0"; "0"; "0"; "0"; "0"; "0"; "0"; "0"; "0"; "0"; "0"; "0"; "0"; "0"];
  ["0"; "0"; "0"; "0"; "0"; "0"; "0"; "0"; "0"; "0"; "0"; "0"; "2/21"; "0"; "0"; "0"; "0"; "0"; "0"; "0"; "0"; "0"; "0"; "0"; "0"; "0"; "0"; "0"; "0"; "0"];
  ["0"; "0"; "0"; "0"; "0"; "0"; "0"; "0"; "0"; "0"; "0"; "0"; "0"; "2/23"; "0"; "0"; "0"; "0"; "0"; "0"; "0"; "0"; "0"; "0"; "0"; "0"; "0"; "0"; "0"; "0"];
  ["0"; "0"; "0"; "0"; "0"; "0"; "0"; "0"; "0"; "0"; "0"; "0"; "0"; "0"; "2/25"; "0"; "0"; "0"; "0"; "0"; "0"; "0"; "0"; "0"; "0"; "0"; "0"; "0"; "0"; "0"];
  ["0"; "0"; "0"; "0"; "0"; "0"; "0"; "0"; "0"; "0"; "0"; "0"; "0"; "0"; "0"; "2/27"; "0"; "0"; "0"; "0"; "0"; "0"; "0"; "0"; "0"; "0"; "0"; "0"; "0"; "0"];
  ["0"; "0"; "0"; "0"; "0"; "0"; "0"; "0"; "0"; "0"; "0"; "0"; "0"; "0"; "0"; "0"; "2/29"; "0"; "0"; "0"; "0"; "0"; "0"; "0"; "0"; "0"; "0"; "0"; "0"; "0"];
  ["0"; "0"; "0"; "0"; "0"; "0"; "0"; "0"; "0"; "0"; "0"; "0"; "0"; "0"; "0"; "0"; "0"; "2/31"; "0"; "0"; "0"; "0"; "0"; "0"; "0"; "0"; "0"; "0"; "0"; "0"];
  ["0"; "0"; "0"; "0"; "0"; "0"; "0"; "0"; "0"; "0"; "0"; "0"; "0"; "0"; "0"; "0"; "0"; "0"; "2/33"; "0"; "0"; "0"; "0"; "0"; "0"; "0"; "0"; "0"; "0"; "0"];
  ["0"; "0"; "0"; "0"; "0"; "0"; "0"; "0"; "0"; "0"; "0"; "0"; "0"; "0"; "0"; "0"; "0"; "0"; "0"; "2/35"; "0"; "0"; "0"; "0"; "0"; "0"; "0"; "0"; "0"; "0"];
  ["0"; "0"; "0"; "0"; "0"; "0"; "0"; "0"; "0"; "0"; "0"; "0"; "0"; "0"; "0"; "0"; "0"; "0"; "0"; "0"; "2/37"; "0"; "0"; "0"; "0"; "0"; "0"; "0"; "0"; "0"];
  ["0"; "0"; "0"; "0"; "0"; "0"; "0"; "0"; "0"; "0"; "0"; "0"; "0"; "0"; "0"; "0"; "0"; "0"; "0"; "0"; "0"; "2/39"; "0"; "0"; "0"; "0"; "0"; "0"; "0"; "0"];
  ["0"; "0"; "0"; "0"; "0"; "0"; "0"; "0"; "0"; "0"; "0"; "0"; "0"; "0"; "0"; "0"; "0"; "0"; "0"; "0"; "0"; "0"; "2/41"; "0"; "0"; "0"; "0"; "0"; "0"; "0"];
  ["0"; "0"; "0"; "0"; "0"; "0"; "0"; "0"; "0"; "0"; "0"; "0"; "0"; "0"; "0"; "0"; "0"; "0"; "0"; "0"; "0"; "0"; "0"; "2/43"; "0"; "0"; "0"; "0"; "0"; "0"];
  ["0"; "0"; "0"; "0"; "0"; "0"; "0"; "0"; "0"; "0"; "0"; "0"; "0"; "0"; "0"; "0"; "0"; "0"; "0"; "0"; "0"; "0"; "0"; "0"; "2/45"; "0"; "0"; "0"; "0"; "0"];
  ["0"; "0"; "0"; "0"; "0"; "0"; "0"; "0"; "0"; "0"; "0"; "0"; "0"; "0"; "0"; "0"; "0"; "0"; "0"; "0"; "0"; "0"; "0"; "0"; "0"; "2/47"; "0"; "0"; "0"; "0"];
  ["0"; "0"; "0"; "0"; "0"; "0"; "0"; "0"; "0"; "0"; "0"; "0"; "0"; "0"; "0"; "0"; "0"; "0"; "0"; "0"; "0"; "0"; "0"; "0"; "0"; "0"; "2/49"; "0"; "0"; "0"];
  ["0"; "0"; "0"; "0"; "0"; "0"; "0"; "0"; "0"; "0"; "0"; "0"; "0"; "0"; "0"; "0"; "0"; "0"; "0"; "0"; "0"; "0"; "0"; "0"; "0"; "0"; "0"; "2/51"; "0"; "0"];
  ["0"; "0"; "0"; "0"; "0"; "0"; "0"; "0"; "0"; "0"; "0"; "0"; "0"; "0"; "0"; "0"; "0"; "0"; "0"; "0"; "0"; "0"; "0"; "0"; "0"; "0"; "0"; "0"; "2/53"; "0"];
  ["7.45058059692383e-9"; "3.72529029846191e-9"; "0"; "3.72529029846191e-9"; "0"; "0"; "0"; "0"; "0"; "0"; "0"; "0"; "0"; "0"; "0"; "0"; "0"; "0"; "0"; "0"; "0"; "0"; "0"; "0"; "0"; "0"; "0"; "0"; "0"; "2/55"]
].
