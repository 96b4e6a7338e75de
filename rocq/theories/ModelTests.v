(** GENERATED by tools/mktests.py from /repo/tests/*.rs: the integration tests of the project
    run against the model (tests of the transcription, not proofs of properties).
    Not transcribed: tests_save_dict, tests_arrow, tests_using_capital_letter, tests_semicolon_entry, tests_strict_okuri_entry, tests_strict_okuri_precedence, tests_auto_start_henkan_register_not_includes_period, tests_abort, tests_maruichi, input_mode_transitions_input_mode_transition_hankakukatakana_orig, okuri_ari_transitions_setsubiji, okuri_ari_transitions_settouji, okuri_nasi_transitions_okuri_nasi_transitions_all_capital, default_rule_z_minus. *)
From Verif Require Import Str Keys Modes KanaBuilder FormChanger DictTypes Parser Lru
  Dictionary CState Context DefaultRule.

(** /repo/tests/data/dictionaries/SKK-JISYO.S *)
Definition dic_SKK_JISYO_S_0 : list str := Eval vm_compute in [
  (U ";; -*- fundamental -*- ; coding: euc-jp -*-");
  (U ";; Small size dictionary for SKK system");
  (U ";; Copyright (C) 1988-1995, 1997, 1999-2003");
  (U ";;");
  (U ";; Masahiko Sato <masahiko@kuis.kyoto-u.ac.jp>");
  (U ";; Hironobu Takahashi <takahasi@tiny.or.jp>,");
  (U ";; Masahiro Doteguchi, Miki Inooka,");
  (U ";; Yukiyoshi Kameyama <kameyama@kuis.kyoto-u.ac.jp>,");
  (U ";; Akihiko Sasaki, Dai Ando, Junichi Okukawa,");
  (U ";; Katsushi Sato and Nobuhiro Yamagishi");
  (U ";;");
  (U ";; Maintainer: SKK Development Team <skk@ring.gr.jp>");
  (U ";; Version: $Id: SKK-JISYO.S,v 1.55 2006/01/04 10:25:04 skk-cvs Exp $");
  (U ";; Keywords: japanese");
  (U ";; Last Modified: $Date: 2006/01/04 10:25:04 $");
  (U ";;");
  (U ";; This dictionary is free software; you can redistribute it and/or modify");
  (U ";; it under the terms of the GNU General Public License as published by");
  (U ";; the Free Software Foundation; either versions 2, or (at your option)");
  (U ";; any later version.");
  (U ";;");
  (U ";; This dictionary is distributed in the hope that it will be useful");
  (U ";; but WITHOUT ANY WARRANTY; without even the implied warranty of");
  (U ";; MERCHANTABILITY or FITNESS FOR A PARTICULAR PURPOSE.  See the");
  (U ";; GNU General Public License for more details.");
  (U ";;");
  (U ";; You should have received a copy of the GNU General Public License");
  (U ";; along with Daredevil SKK, see the file COPYING.  If not, write to the Free");
  (U ";; Software Foundation Inc., 51 Franklin St, Fifth Floor, Boston,");
  (U ";; MA 02110-1301, USA.");
  (U ";;");
  (U ";; okuri-ari entries.");
  (U "わるs /悪/");
  (U "わるk /悪/");
  (U "わるi /悪/");
  (U "わらu /笑/");
  (U "わらi /笑/");
  (U "わたt /渡/");
  (U "わたs /渡/");
  (U "わたr /渡/亘/亙/渉/");
  (U "わずらw /煩/");
  (U "わずらu /患/煩/");
  (U "わすr /忘/");
  (U "わざわi /災/");
  (U "わかs /若/");
  (U "わかr /別/");
  (U "わかk /若/");
  (U "わかi /若/");
  (U "わr /割/");
  (U "わk /沸/分/");
  (U "わb /詫/");
  (U "よわs /弱/");
  (U "よわr /弱/");
  (U "よわm /弱/");
  (U "よわk /弱/");
  (U "よわi /弱/");
  (U "よろこb /喜/");
  (U "よろs /宜/");
  (U "よっt /四/");
  (U "よそおu /装/");
  (U "よごs /汚/");
  (U "よごr /汚/");
  (U "よw /酔/");
  (U "よu /酔/");
  (U "よt /酔/四/");
  (U "よs /寄/良/");
  (U "よr /寄/因/");
  (U "よm /読/詠/");
  (U "よk /良/");
  (U "よi /良/酔/善/");
  (U "よb /呼/");
  (U "ゆるy /緩/");
  (U "ゆるs /許/");
  (U "ゆるm /緩/");
  (U "ゆるi /緩/");
  (U "ゆたk /豊/");
  (U "ゆずt /譲/");
  (U "ゆずr /譲/");
  (U "ゆがn /歪/");
  (U "ゆがm /歪/");
  (U "ゆうs /有/");
  (U "ゆw /結/");
  (U "ゆu /結/");
  (U "ゆs /揺/");
  (U "ゆr /揺/");
  (U "ゆk /行/逝/");
  (U "やわr /柔/軟/和/");
  (U "やぶr /破/敗/");
  (U "やどs /宿/");
  (U "やどr /宿/");
  (U "やとu /雇/");
  (U "やっt /八/");
  (U "やすうr /安売/");
  (U "やすs /安/");
  (U "やすm /休/");
  (U "やすk /安/");
  (U "やすi /安/");
  (U "やしなu /養/");
  (U "やさs /易/優/");
  (U "やt /八/")].
Definition dic_SKK_JISYO_S_1 : list str := Eval vm_compute in [
  (U "やm /辞/病/");
  (U "やk /焼/");
  (U "もらw /貰/");
  (U "もらu /貰/");
  (U "もらt /貰/");
  (U "もらi /貰/");
  (U "もらe /貰/");
  (U "もよおs /催/");
  (U "もよr /最寄/");
  (U "もどt /戻/");
  (U "もどs /戻/");
  (U "もどr /戻/");
  (U "もとm /求/");
  (U "もっぱr /専/");
  (U "もっとm /最/");
  (U "もちi /用/");
  (U "もぐr /潜/");
  (U "もうs /申/");
  (U "もうk /設/儲/");
  (U "もy /燃/");
  (U "もt /持/");
  (U "もs /若/燃/");
  (U "もr /盛/漏/守/");
  (U "もe /燃/");
  (U "めだt /目立/");
  (U "めずらs /珍/");
  (U "めざs /目指/");
  (U "めぐr /巡/");
  (U "めぐm /恵/");
  (U "めs /召/");
  (U "むっt /六/");
  (U "むずかs /難/");
  (U "むすb /結/");
  (U "むくi /報/");
  (U "むかe /迎/");
  (U "むt /六/");
  (U "むs /蒸/");
  (U "むr /群/蒸/");
  (U "むk /向/");
  (U "みのr /実/");
  (U "みにくi /醜/");
  (U "みとm /認/");
  (U "みつk /見付/");
  (U "みつg /貢/");
  (U "みっt /三/");
  (U "みちびk /導/");
  (U "みだs /乱/");
  (U "みだr /乱/");
  (U "みずかr /自/");
  (U "みじかm /短/");
  (U "みじかk /短/");
  (U "みじかi /短/");
  (U "みじm /惨/");
  (U "みがk /磨/");
  (U "みかk /見掛/");
  (U "みおt /見落/");
  (U "みt /満/");
  (U "みs /見/");
  (U "みr /見/診/");
  (U "みn /観/");
  (U "みe /見/");
  (U "まわs /周/回/");
  (U "まわr /周/回/");
  (U "まるm /丸/");
  (U "まるi /丸/円/");
  (U "まよu /迷/");
  (U "まよi /迷/");
  (U "まもt /守/");
  (U "まもr /守/");
  (U "まねk /招/");
  (U "まぬかr /免/");
  (U "まなb /学/");
  (U "まどu /惑/");
  (U "まつr /祭/");
  (U "まったk /全/");
  (U "まちがu /間違/");
  (U "まちがt /間違/");
  (U "まちがi /間違/");
  (U "まちがe /間違/");
  (U "またたk /瞬/");
  (U "まずs /貧/");
  (U "まじw /交/");
  (U "まじe /交/");
  (U "まさr /勝/");
  (U "まぎr /紛/");
  (U "まかなu /賄/");
  (U "まかs /任/");
  (U "まいr /参/");
  (U "まz /交/混/");
  (U "まu /舞/");
  (U "まt /待/");
  (U "まs /増/");
  (U "まk /負/巻/");
  (U "まg /曲/");
  (U "ほろb /滅/");
  (U "ほどこs /施/");
  (U "ほとんd /殆/");
  (U "ほっs /欲/");
  (U "ほそs /細/");
  (U "ほそr /細/")].
Definition dic_SKK_JISYO_S_2 : list str := Eval vm_compute in [
  (U "ほそm /細/");
  (U "ほそi /細/");
  (U "ほこr /誇/");
  (U "ほがr /朗/");
  (U "ほうむr /葬/");
  (U "ほs /欲/干/");
  (U "ほr /彫/掘/");
  (U "ほm /褒/");
  (U "ほe /吠/");
  (U "へだt /隔/");
  (U "へr /減/経/");
  (U "ふるu /震/奮/");
  (U "ふるs /古/");
  (U "ふるm /古/");
  (U "ふるk /古/");
  (U "ふるi /古/");
  (U "ふるe /震/");
  (U "ふとr /太/");
  (U "ふとi /太/");
  (U "ふたたb /再/");
  (U "ふたt /二/");
  (U "ふせg /防/");
  (U "ふくr /膨/");
  (U "ふくn /含/");
  (U "ふくm /含/");
  (U "ふかm /深/");
  (U "ふかk /深/");
  (U "ふかi /深/");
  (U "ふy /増/殖/");
  (U "ふt /振/");
  (U "ふs /伏/");
  (U "ふr /振/触/降/");
  (U "ふn /踏/");
  (U "ふm /踏/");
  (U "ふk /吹/更/噴/老/");
  (U "ふi /吹/");
  (U "ふe /増/殖/");
  (U "ひろu /拾/");
  (U "ひろm /広/");
  (U "ひろi /広/");
  (U "ひろg /広/");
  (U "ひるがえs /翻/");
  (U "ひるがえr /翻/");
  (U "ひらk /開/");
  (U "ひらi /開/");
  (U "ひびk /響/");
  (U "ひとt /一/");
  (U "ひとs /等/");
  (U "ひとr /独/");
  (U "ひたs /浸/");
  (U "ひたr /浸/");
  (U "ひそm /潜/");
  (U "ひさs /久/");
  (U "ひくm /低/");
  (U "ひくk /低/");
  (U "ひくi /低/");
  (U "ひきi /率/");
  (U "ひがえr /日帰/");
  (U "ひかr /光/");
  (U "ひかe /控/");
  (U "ひいd /秀/");
  (U "ひy /冷/");
  (U "ひr /干/");
  (U "ひm /秘/");
  (U "ひk /引/弾/");
  (U "ひe /冷/");
  (U "ばk /化/");
  (U "はんs /反/");
  (U "はらw /払/");
  (U "はらu /払/");
  (U "はらt /払/");
  (U "はらo /払/");
  (U "はらi /払/");
  (U "はらe /払/");
  (U "はやs /速/早/");
  (U "はやm /早/速/");
  (U "はやk /早/速/");
  (U "はやi /速/早/");
  (U "はぶk /省/");
  (U "はばm /阻/");
  (U "はなはd /甚/");
  (U "はなt /放/");
  (U "はなs /離/放/話/");
  (U "はなr /離/放/");
  (U "はたらk /働/");
  (U "はずかしm /辱/");
  (U "はずs /外/");
  (U "はずr /外/");
  (U "はずm /弾/");
  (U "はじm /始/初/");
  (U "はしr /走/");
  (U "はさm /挟/");
  (U "はこb /運/");
  (U "はげs /激/");
  (U "はげm /励/");
  (U "はかr /図/計/測/量/諮/謀/");
  (U "はいr /入/");
  (U "はz /恥/");
  (U "はy /生/");
  (U "はu /這/")].
Definition dic_SKK_JISYO_S_3 : list str := Eval vm_compute in [
  (U "はt /果/貼/");
  (U "はr /張/貼/晴/");
  (U "はn /跳/");
  (U "はk /掃/吐/履/");
  (U "はe /生/栄/映/");
  (U "のぼs /上/");
  (U "のぼr /登/上/昇/");
  (U "のぞm /望/臨/");
  (U "のぞk /除/覗/");
  (U "のこs /残/");
  (U "のこr /残/");
  (U "のがs /逃/");
  (U "のがr /逃/");
  (U "のt /載/");
  (U "のs /載/乗/");
  (U "のr /乗/載/");
  (U "のm /飲/");
  (U "のb /述/延/伸/");
  (U "ねんごr /懇/");
  (U "ねらu /狙/");
  (U "ねらt /狙/");
  (U "ねらi /狙/");
  (U "ねむt /眠/");
  (U "ねむr /眠/");
  (U "ねむi /眠/");
  (U "ねばr /粘/");
  (U "ねがu /願/");
  (U "ねがi /願/");
  (U "ねr /寝/練/");
  (U "ぬすm /盗/");
  (U "ぬu /縫/");
  (U "ぬt /塗/");
  (U "ぬr /塗/濡/");
  (U "ぬk /抜/");
  (U "ぬi /抜/");
  (U "ぬg /脱/");
  (U "にぶr /鈍/");
  (U "にぶi /鈍/");
  (U "になu /担/");
  (U "にごs /濁/");
  (U "にごr /濁/");
  (U "にくs /憎/");
  (U "にくr /憎/");
  (U "にくm /憎/");
  (U "にくi /憎/");
  (U "にぎw /賑/");
  (U "にがr /苦/");
  (U "にがi /苦/");
  (U "におw /匂/");
  (U "におu /匂/");
  (U "におi /匂/");
  (U "におe /匂/");
  (U "にあw /似合/");
  (U "にあu /似合/");
  (U "にあt /似合/");
  (U "にあi /似合/");
  (U "にy /煮/");
  (U "にr /似/煮/");
  (U "にg /逃/");
  (U "にe /煮/");
  (U "ならu /倣/習/");
  (U "ならb /並/");
  (U "なやn /悩/");
  (U "なやm /悩/");
  (U "なめr /滑/");
  (U "なまk /怠/");
  (U "ななt /七/");
  (U "ななm /斜/");
  (U "なつk /懐/");
  (U "なさk /情/");
  (U "なごy /和/");
  (U "なごm /和/");
  (U "なげk /嘆/");
  (U "なぐさm /慰/");
  (U "なぐr /殴/");
  (U "ながs /流/長/");
  (U "ながr /流/乍/");
  (U "ながm /眺/");
  (U "ながk /長/");
  (U "ながi /長/永/");
  (U "なかb /半/");
  (U "なおs /治/直/");
  (U "なおr /治/直/");
  (U "なs /無/成/");
  (U "なr /慣/鳴/馴/成/");
  (U "なk /無/鳴/泣/");
  (U "なi /無/亡/");
  (U "なg /凪/投/");
  (U "ともなw /伴/");
  (U "ともなu /伴/");
  (U "ともなt /伴/");
  (U "ともなi /伴/");
  (U "とむらu /弔/");
  (U "とぼs /乏/");
  (U "となr /隣/");
  (U "となe /唱/");
  (U "とどこおr /滞/");
  (U "とどk /届/");
  (U "ととのu /整/調/");
  (U "ととのe /整/調/")].
Definition dic_SKK_JISYO_S_4 : list str := Eval vm_compute in [
  (U "とつg /嫁/");
  (U "とおs /遠/通/");
  (U "とおr /通/");
  (U "とおk /遠/");
  (U "とおi /遠/");
  (U "とうとi /尊/貴/");
  (U "とうとb /尊/貴/");
  (U "とz /閉/");
  (U "とu /問/");
  (U "とt /撮/");
  (U "とr /取/撮/捕/執/採/");
  (U "とm /止/富/留/泊/");
  (U "とk /解/溶/説/");
  (U "とi /問/");
  (U "とg /研/遂/");
  (U "とb /飛/跳/");
  (U "できt /出来/");
  (U "できs /出来/");
  (U "できr /出来/");
  (U "できn /出来/");
  (U "できm /出来/");
  (U "でr /出/");
  (U "てつづk /手続/");
  (U "てつだt /手伝/");
  (U "てつだi /手伝/");
  (U "てつだe /手伝/");
  (U "てきs /適/");
  (U "ていs /呈/");
  (U "てr /照/");
  (U "つらぬk /貫/");
  (U "つらn /連/");
  (U "つよm /強/");
  (U "つよk /強/");
  (U "つよi /強/");
  (U "つめt /冷/");
  (U "つむg /紡/");
  (U "つぶs /潰/");
  (U "つのr /募/");
  (U "つどu /集/");
  (U "つどi /集/");
  (U "つとm /勤/努/務/");
  (U "つづr /綴/");
  (U "つづk /続/");
  (U "つつしm /謹/慎/");
  (U "つつm /包/");
  (U "つちかu /培/");
  (U "つたw /伝/");
  (U "つたu /伝/");
  (U "つたe /伝/");
  (U "つぐなu /償/");
  (U "つくろu /繕/");
  (U "つくr /作/造/");
  (U "つかw /遣/");
  (U "つかu /使/遣/");
  (U "つかr /疲/");
  (U "つかm /捕/掴/");
  (U "つかi /使/");
  (U "つかe /仕/");
  (U "ついy /費/");
  (U "ついe /費/");
  (U "つt /突/");
  (U "つr /釣/連/");
  (U "つm /詰/摘/積/");
  (U "つk /付/着/突/漬/就/尽/");
  (U "つi /突/");
  (U "つg /継/次/接/告/");
  (U "ちぢr /縮/");
  (U "ちぢm /縮/");
  (U "ちぎr /契/");
  (U "ちがw /違/");
  (U "ちがu /違/");
  (U "ちがt /違/");
  (U "ちがi /違/");
  (U "ちがe /違/");
  (U "ちかu /誓/");
  (U "ちかi /近/");
  (U "ちいs /小/");
  (U "ちr /散/");
  (U "だまt /黙/");
  (U "だまr /黙/");
  (U "だいすk /大好/");
  (U "だs /出/");
  (U "だk /抱/");
  (U "たわむr /戯/");
  (U "たよt /頼/");
  (U "たよr /頼/便/");
  (U "たもt /保/");
  (U "ためs /試/");
  (U "たまわr /賜/");
  (U "たまr /溜/");
  (U "たのs /楽/");
  (U "たのn /頼/");
  (U "たのm /頼/");
  (U "たどr /辿/");
  (U "たとe /例/");
  (U "たてまつr /奉/");
  (U "たっとi /貴/尊/");
  (U "たっとb /尊/貴/");
  (U "ただよu /漂/");
  (U "ただt /直/")].
Definition dic_SKK_JISYO_S_5 : list str := Eval vm_compute in [
  (U "ただs /正/但/");
  (U "たたかu /戦/闘/");
  (U "たたm /畳/");
  (U "たたk /叩/");
  (U "たずさw /携/");
  (U "たずさe /携/");
  (U "たずn /尋/訪/");
  (U "たすk /助/");
  (U "たしk /確/");
  (U "たくわe /蓄/");
  (U "たがやs /耕/");
  (U "たがi /互/");
  (U "たかs /高/");
  (U "たかm /高/");
  (U "たかk /高/");
  (U "たかi /高/");
  (U "たおs /倒/");
  (U "たおr /倒/");
  (U "たいs /対/");
  (U "たいr /平/");
  (U "たy /絶/");
  (U "たt /立/建/断/裁/絶/");
  (U "たs /足/");
  (U "たr /垂/足/");
  (U "たm /溜/矯/");
  (U "たk /炊/");
  (U "たe /耐/絶/");
  (U "たb /食/");
  (U "ぞんz /存/");
  (U "ぞくs /属/");
  (U "そろt /揃/");
  (U "そろi /揃/");
  (U "そろe /揃/");
  (U "そむk /背/");
  (U "そなw /備/");
  (U "そなe /供/備/");
  (U "そだt /育/");
  (U "そそのかs /唆/");
  (U "そそg /注/");
  (U "そこn /損/");
  (U "そu /沿/添/");
  (U "そt /沿/添/");
  (U "そr /反/");
  (U "そm /初/染/");
  (U "そi /沿/");
  (U "そe /添/");
  (U "せまr /迫/");
  (U "せまi /狭/");
  (U "せばm /狭/");
  (U "せr /競/");
  (U "せm /攻/責/");
  (U "すわr /座/");
  (U "するどi /鋭/");
  (U "すみy /速/");
  (U "すべt /滑/");
  (U "すべr /滑/");
  (U "すばr /素晴/");
  (U "すなわt /即/");
  (U "すでn /既/");
  (U "すたr /廃/");
  (U "すずs /涼/");
  (U "すずm /涼/");
  (U "すすm /進/勧/薦/");
  (U "すごs /凄/");
  (U "すごm /凄/");
  (U "すごk /凄/");
  (U "すごi /凄/");
  (U "すこぶr /頗/");
  (U "すこy /健/");
  (U "すこs /少/");
  (U "すぐr /優/");
  (U "すくu /救/");
  (U "すくn /少/");
  (U "すくi /救/");
  (U "すw /据/");
  (U "すu /吸/");
  (U "すt /捨/");
  (U "すr /擦/摺/刷/");
  (U "すm /済/住/澄/");
  (U "すk /好/透/");
  (U "すi /酸/");
  (U "すg /過/");
  (U "すe /据/");
  (U "すb /統/");
  (U "しんz /信/");
  (U "しろk /白/");
  (U "しろi /白/");
  (U "しるs /記/");
  (U "しりぞk /退/");
  (U "しらb /調/");
  (U "しゃべt /喋/");
  (U "しゃべr /喋/");
  (U "しめs /示/湿/");
  (U "しめr /湿/");
  (U "しぼr /搾/絞/");
  (U "しぶi /渋/");
  (U "しばr /縛/");
  (U "しはらw /支払/");
  (U "しはらu /支払/");
  (U "しはらt /支払/")].
Definition dic_SKK_JISYO_S_6 : list str := Eval vm_compute in [
  (U "しはらi /支払/");
  (U "しのb /偲/忍/");
  (U "したたr /滴/");
  (U "したがu /従/");
  (U "したがi /従/");
  (U "したがe /従/");
  (U "したu /慕/");
  (U "したs /親/");
  (U "しずm /沈/静/鎮/");
  (U "しずk /静/");
  (U "しげr /茂/");
  (U "しくm /仕組/");
  (U "しかt /叱/");
  (U "しかr /叱/");
  (U "しいたg /虐/");
  (U "しあわs /幸/");
  (U "しr /知/");
  (U "しn /死/");
  (U "しm /締/占/絞/染/閉/");
  (U "しk /敷/");
  (U "しi /強/");
  (U "さわt /触/");
  (U "さわr /触/障/");
  (U "さわg /騒/");
  (U "さむs /寒/");
  (U "さむk /寒/");
  (U "さむi /寒/");
  (U "さまたg /妨/");
  (U "さびs /寂/");
  (U "さびr /寂/");
  (U "さばk /裁/捌/");
  (U "さとs /諭/");
  (U "さとr /悟/");
  (U "さだm /定/");
  (U "さだk /定/");
  (U "さそu /誘/");
  (U "さずk /授/");
  (U "さしだs /差出/");
  (U "ささe /支/");
  (U "さけb /叫/");
  (U "さぐr /探/");
  (U "さがs /捜/探/");
  (U "さかr /逆/盛/");
  (U "さかn /盛/");
  (U "さかe /栄/");
  (U "さえぎr /遮/");
  (U "さいわi /幸/");
  (U "さs /挿/差/刺/指/");
  (U "さr /去/");
  (U "さm /覚/冷/");
  (U "さk /避/割/咲/裂/");
  (U "さg /提/下/");
  (U "さe /冴/");
  (U "ごぞんz /御存/");
  (U "こわs /壊/");
  (U "こわr /壊/");
  (U "こわk /恐/怖/");
  (U "こわi /恐/怖/");
  (U "こわg /怖/恐/");
  (U "ころs /殺/");
  (U "ころg /転/");
  (U "ころb /転/");
  (U "こまr /困/");
  (U "こまk /細/");
  (U "こばm /拒/");
  (U "このm /好/");
  (U "ことわr /断/");
  (U "ことn /異/");
  (U "こたe /答/応/");
  (U "こごe /凍/");
  (U "こころよi /快/");
  (U "こころざs /志/");
  (U "こころm /試/");
  (U "ここのt /九/");
  (U "こがr /焦/");
  (U "こおr /凍/");
  (U "こうむr /被/");
  (U "こうz /高/講/");
  (U "こいs /恋/");
  (U "こy /肥/");
  (U "こu /乞/請/恋/");
  (U "こs /越/漉/超/");
  (U "こr /凝/懲/");
  (U "こn /込/");
  (U "こm /込/");
  (U "こk /濃/");
  (U "こi /濃/乞/");
  (U "こg /焦/");
  (U "こe /越/超/肥/");
  (U "げんz /減/");
  (U "けわs /険/");
  (U "けむr /煙/");
  (U "けむi /煙/");
  (U "けっs /決/");
  (U "けずr /削/");
  (U "けがs /汚/");
  (U "けがr /汚/");
  (U "けs /消/");
  (U "くわだt /企/");
  (U "くわw /加/")].
Definition dic_SKK_JISYO_S_7 : list str := Eval vm_compute in [
  (U "くわs /詳/");
  (U "くわe /加/");
  (U "くろi /黒/");
  (U "くるu /狂/");
  (U "くるs /苦/");
  (U "くるo /狂/");
  (U "くるi /狂/");
  (U "くらi /暗/");
  (U "くらb /比/");
  (U "くやs /悔/");
  (U "くもr /曇/");
  (U "くばr /配/");
  (U "くつがえs /覆/");
  (U "くつがえr /覆/");
  (U "くだs /下/");
  (U "くだr /下/");
  (U "くだk /砕/");
  (U "くずs /崩/");
  (U "くずr /崩/");
  (U "くさr /腐/");
  (U "くさi /臭/");
  (U "くy /悔/");
  (U "くw /喰/");
  (U "くu /食/喰/");
  (U "くt /喰/朽/");
  (U "くr /来/繰/暮/食/");
  (U "くm /酌/組/");
  (U "くi /食/喰/悔/");
  (U "くe /喰/");
  (U "きわm /極/究/窮/");
  (U "きらw /嫌/");
  (U "きらu /嫌/");
  (U "きらt /嫌/");
  (U "きらi /嫌/");
  (U "きよm /清/");
  (U "きよi /清/");
  (U "きもt /気持/");
  (U "きびs /厳/");
  (U "きづk /気付/");
  (U "きづi /気付/");
  (U "きたなi /汚/");
  (U "きたe /鍛/");
  (U "きそu /競/");
  (U "きずk /築/");
  (U "きざs /兆/");
  (U "きざm /刻/");
  (U "きs /着/");
  (U "きr /切/着/");
  (U "きm /決/");
  (U "きk /聞/聴/効/利/");
  (U "きi /聴/");
  (U "きe /消/");
  (U "がんばt /頑張/");
  (U "がんばr /頑張/");
  (U "かんばs /芳/");
  (U "かんちがi /勘違/");
  (U "かんがe /考/");
  (U "かんz /感/");
  (U "かんs /関/");
  (U "かわいr /可愛/");
  (U "かわいk /可愛/");
  (U "かわいi /可愛/");
  (U "かわいg /可愛/");
  (U "かわr /変/");
  (U "かわk /渇/乾/");
  (U "かろy /軽/");
  (U "かるs /軽/");
  (U "かるk /軽/");
  (U "かるi /軽/");
  (U "からn /絡/");
  (U "からm /絡/");
  (U "からi /辛/");
  (U "かよu /通/");
  (U "かよi /通/");
  (U "かもs /醸/");
  (U "かまu /構/");
  (U "かまi /構/");
  (U "かまe /構/");
  (U "かならz /必/");
  (U "かなu /叶/");
  (U "かなs /悲/");
  (U "かなd /奏/");
  (U "かつg /担/");
  (U "かたわr /傍/");
  (U "かたよr /偏/");
  (U "かたむk /傾/");
  (U "かたr /語/");
  (U "かたm /固/");
  (U "かたi /硬/堅/固/難/");
  (U "かぞe /数/");
  (U "かせg /稼/");
  (U "かしこi /賢/");
  (U "かざr /飾/");
  (U "かさn /重/");
  (U "かこu /囲/");
  (U "かこm /囲/");
  (U "かくs /隠/");
  (U "かくr /隠/");
  (U "かぎr /限/");
  (U "かがやk /輝/")].
Definition dic_SKK_JISYO_S_8 : list str := Eval vm_compute in [
  (U "かかw /関/");
  (U "かかr /係/");
  (U "かかg /掲/");
  (U "かかe /抱/");
  (U "かおr /香/馨/薫/");
  (U "かえりm /顧/省/");
  (U "かえs /返/帰/");
  (U "かえr /帰/返/");
  (U "かw /変/代/替/換/交/");
  (U "かu /買/交/飼/");
  (U "かt /勝/且/");
  (U "かs /貸/");
  (U "かr /借/苅/刈/駆/狩/枯/");
  (U "かn /噛/兼/");
  (U "かm /噛/");
  (U "かk /書/掛/欠/架/駆/懸/");
  (U "かi /買/");
  (U "かe /変/替/代/換/");
  (U "おわr /終/");
  (U "おろs /卸/");
  (U "おろk /愚/");
  (U "およg /泳/");
  (U "およb /及/");
  (U "おもむk /赴/");
  (U "おもしろs /面白/");
  (U "おもしろk /面白/");
  (U "おもしろi /面白/");
  (U "おもu /思/");
  (U "おもs /重/");
  (U "おもm /重/");
  (U "おもi /思/重/");
  (U "おぼe /覚/");
  (U "おびやk /脅/");
  (U "おなz /同/");
  (U "おどろk /驚/");
  (U "おどろi /驚/");
  (U "おどs /脅/");
  (U "おどr /躍/踊/");
  (U "おどk /脅/");
  (U "おとろe /衰/");
  (U "おとずr /訪/");
  (U "おとしいr /陥/");
  (U "おとr /劣/");
  (U "おちいr /陥/");
  (U "おだy /穏/");
  (U "おそw /教/");
  (U "おそu /襲/");
  (U "おそs /遅/");
  (U "おそr /恐/");
  (U "おそk /遅/");
  (U "おそi /遅/");
  (U "おしe /教/");
  (U "おさなi /幼/");
  (U "おさm /収/修/治/納/");
  (U "おさe /抑/");
  (U "おごそk /厳/");
  (U "おこなu /行/");
  (U "おこたr /怠/");
  (U "おこs /興/");
  (U "おこr /興/怒/");
  (U "おくr /送/遅/後/");
  (U "おぎなu /補/");
  (U "おがm /拝/");
  (U "おかs /犯/冒/");
  (U "おおu /覆/");
  (U "おおs /多/");
  (U "おおm /多/");
  (U "おおk /大/多/");
  (U "おおi /多/大/");
  (U "おうz /応/");
  (U "おw /終/");
  (U "おu /負/追/生/");
  (U "おt /落/");
  (U "おs /押/惜/推/");
  (U "おr /降/折/織/下/");
  (U "おk /起/置/");
  (U "おi /追/負/老/");
  (U "おe /終/");
  (U "おb /帯/");
  (U "えらi /偉/");
  (U "えらb /選/");
  (U "えがk /描/");
  (U "えがi /描/");
  (U "えr /得/");
  (U "えm /笑/");
  (U "うれs /嬉/");
  (U "うれi /憂/愁/");
  (U "うれe /憂/愁/");
  (U "うるわs /麗/");
  (U "うるおu /潤/");
  (U "うるおs /潤/");
  (U "うるm /潤/");
  (U "うらなu /占/");
  (U "うらなi /占/");
  (U "うらm /恨/");
  (U "うやまu /敬/");
  (U "うやうやs /恭/");
  (U "うばu /奪/");
  (U "うばt /奪/");
  (U "うながs /促/")].
Definition dic_SKK_JISYO_S_9 : list str := Eval vm_compute in [
  (U "うとm /疎/");
  (U "うとi /疎/");
  (U "うつくs /美/");
  (U "うつs /移/映/写/");
  (U "うつr /移/写/映/");
  (U "うったe /訴/");
  (U "うたがu /疑/");
  (U "うたu /歌/謡/");
  (U "うすr /薄/");
  (U "うすm /薄/");
  (U "うすk /薄/");
  (U "うすi /薄/");
  (U "うしなu /失/");
  (U "うしr /後/");
  (U "うごk /動/");
  (U "うけたまわr /承/");
  (U "うかがu /窺/伺/");
  (U "うかがi /窺/伺/");
  (U "うt /打/撃/討/");
  (U "うr /売/熟/得/");
  (U "うm /埋/産/生/");
  (U "うk /受/浮/請/");
  (U "うi /浮/憂/");
  (U "うe /飢/植/");
  (U "いわu /祝/");
  (U "いろどr /彩/");
  (U "いやs /卑/");
  (U "いましm /戒/");
  (U "いのr /祈/");
  (U "いどm /挑/");
  (U "いとなm /営/");
  (U "いつわr /偽/");
  (U "いつくs /慈/");
  (U "いつt /五/");
  (U "いちじるs /著/");
  (U "いだk /抱/");
  (U "いだi /抱/");
  (U "いただk /頂/戴/");
  (U "いただi /戴/");
  (U "いたs /致/");
  (U "いたr /至/");
  (U "いたm /痛/傷/悼/");
  (U "いたi /痛/");
  (U "いそがs /忙/");
  (U "いそg /急/");
  (U "いさぎよi /潔/");
  (U "いさm /勇/");
  (U "いこu /憩/");
  (U "いこi /憩/");
  (U "いくt /幾/");
  (U "いくr /幾/");
  (U "いきどおr /憤/");
  (U "いきおi /勢/");
  (U "いかt /怒/");
  (U "いかr /怒/");
  (U "いu /言/云/");
  (U "いr /入/居/射/要/鋳/");
  (U "いm /忌/");
  (U "いk /行/生/");
  (U "いi /言/");
  (U "あわt /慌/");
  (U "あわs /併/");
  (U "あわr /哀/");
  (U "あわi /淡/");
  (U "あるk /歩/");
  (U "ありがとu /有難/");
  (U "ありがたi /有難/");
  (U "あらわs /現/著/表/");
  (U "あらわr /現/表/");
  (U "あらたm /改/");
  (U "あらそu /争/");
  (U "あらu /洗/");
  (U "あらt /新/");
  (U "あらi /洗/粗/荒/");
  (U "あゆm /歩/");
  (U "あやまt /過/");
  (U "あやまr /誤/謝/");
  (U "あやつr /操/");
  (U "あやu /危/");
  (U "あやs /怪/");
  (U "あやb /危/");
  (U "あまy /甘/");
  (U "あまs /余/");
  (U "あまr /余/");
  (U "あまi /甘/");
  (U "あまe /甘/");
  (U "あぶn /危/");
  (U "あばr /暴/");
  (U "あばk /暴/");
  (U "あなどr /侮/");
  (U "あつかw /扱/");
  (U "あつかu /扱/");
  (U "あつかt /扱/");
  (U "あつかo /扱/");
  (U "あつかi /扱/");
  (U "あつかe /扱/");
  (U "あつm /集/");
  (U "あつk /厚/熱/暑/");
  (U "あつi /熱/暑/厚/");
  (U "あたらs /新/")].
Definition dic_SKK_JISYO_S_10 : list str := Eval vm_compute in [
  (U "あたたm /暖/温/");
  (U "あたたk /暖/温/");
  (U "あたr /辺/");
  (U "あたe /与/");
  (U "あそb /遊/");
  (U "あせr /焦/");
  (U "あずk /預/");
  (U "あじw /味/");
  (U "あざむk /欺/");
  (U "あざy /鮮/");
  (U "あさk /浅/");
  (U "あさi /浅/");
  (U "あきらm /諦/");
  (U "あきなu /商/");
  (U "あきr /明/");
  (U "あかr /赤/明/");
  (U "あかn /赤/");
  (U "あかi /赤/");
  (U "あおk /青/");
  (U "あおi /青/");
  (U "あいかわr /相変/");
  (U "あw /合/");
  (U "あu /合/逢/会/遭/");
  (U "あt /当/充/");
  (U "あr /有/在/荒/");
  (U "あm /編/");
  (U "あk /飽/開/空/明/");
  (U "あi /合/会/");
  (U "あg /挙/揚/上/");
  (U "あb /浴/");
  (U ";; okuri-nasi entries.");
  (U "Cyrillic /А/Б/В/Г/Д/Е/Ё/Ж/З/И/Й/К/Л/М/Н/О/П/Р/С/Т/У/Ф/Х/Ц/Ч/Ш/Щ/Ъ/Ы/Ь/Э/Ю/Я/");
  (U "Greek /Α/Β/Γ/Δ/Ε/Ζ/Η/Θ/Ι/Κ/Λ/Μ/Ν/Ξ/Ο/Π/Ρ/Σ/Τ/Υ/Φ/Χ/Ψ/Ω/");
  (U "cyrillic /а/б/в/г/д/е/ё/ж/з/и/й/к/л/м/н/о/п/р/с/т/у/ф/х/ц/ч/ш/щ/ъ/ы/ь/э/ю/я/");
  (U "greek /α/β/γ/δ/ε/ζ/η/θ/ι/κ/λ/μ/ν/ξ/ο/π/ρ/σ/τ/υ/φ/χ/ψ/ω/");
  (U "あ /阿/唖/亜/娃/");
  (U "あい /愛/哀/相/挨/");
  (U "あいさつ /挨拶/");
  (U "あいだ /間/");
  (U "あいて /相手/");
  (U "あいよう /愛用/");
  (U "あいら /姶良/");
  (U "あお /青/");
  (U "あおい /葵/");
  (U "あか /赤/垢/");
  (U "あかつき /暁/");
  (U "あかね /茜/");
  (U "あき /秋/穐/");
  (U "あく /悪/握/渥/");
  (U "あくい /悪意/");
  (U "あけぼの /曙/");
  (U "あさ /朝/麻/");
  (U "あさひ /朝日/旭/");
  (U "あざ /字/");
  (U "あし /足/芦/葦/脚/");
  (U "あした /明日/");
  (U "あじ /味/鯵/");
  (U "あす /明日/");
  (U "あずさ /梓/");
  (U "あずま /東/");
  (U "あせ /汗/");
  (U "あぜ /畦/");
  (U "あたい /値/価/");
  (U "あたかも /宛/");
  (U "あたま /頭/");
  (U "あたり /辺/");
  (U "あっしゅく /圧縮/");
  (U "あっとうてき /圧倒的/");
  (U "あつ /篤/斡/圧/");
  (U "あつみ /渥美/");
  (U "あて /宛/");
  (U "あてさき /宛先/");
  (U "あと /後/跡/");
  (U "あな /穴/");
  (U "あなた /貴方/");
  (U "あに /兄/");
  (U "あね /姉/姐/");
  (U "あぶ /虻/");
  (U "あぶら /油/脂/");
  (U "あま /天/雨/甘/尼/");
  (U "あまみ /奄美/");
  (U "あみ /網/");
  (U "あめ /雨/飴/天/");
  (U "あや /文/綾/絢/");
  (U "あゆ /鮎/");
  (U "あらかじめ /予/");
  (U "あらがね /鉱/");
  (U "あらし /嵐/");
  (U "ある /或/");
  (U "あるじ /主/");
  (U "あわ /泡/粟/");
  (U "あわせ /袷/");
  (U "あん /安/案/暗/行/杏/鞍/庵/闇/按/");
  (U "あんか /安価/");
  (U "あんしん /安心/");
  (U "あんぜん /安全/");
  (U "あんない /案内/");
  (U "い /位/為/意/井/唯/如/偉/異/亥/医/遺/違/謂/衣/萎/胃/緯/維/移/畏/易/慰/惟/尉/威/委/夷/囲/依/伊/以/椅/");
  (U "いえ /家/");
  (U "いか /以下/")].
Definition dic_SKK_JISYO_S_11 : list str := Eval vm_compute in [
  (U "いかが /如何/");
  (U "いかだ /筏/");
  (U "いかり /錨/");
  (U "いかん /如何/");
  (U "いがい /以外/意外/");
  (U "いき /息/域/");
  (U "いく /郁/育/幾/");
  (U "いくさ /戦/");
  (U "いけ /池/");
  (U "いけん /意見/");
  (U "いこう /以降/移行/意向/");
  (U "いご /以後/");
  (U "いし /石/医師/");
  (U "いしき /意識/");
  (U "いしずえ /礎/");
  (U "いしゃ /医者/");
  (U "いしょく /移植/");
  (U "いじ /維持/");
  (U "いじょう /以上/異常/");
  (U "いす /椅子/");
  (U "いずみ /泉/");
  (U "いせん /緯線/");
  (U "いぜん /以前/");
  (U "いそ /磯/");
  (U "いぞん /依存/");
  (U "いた /板/");
  (U "いただき /頂/");
  (U "いち /一/位置/壱/市/");
  (U "いちおう /一応/");
  (U "いちぎょう /一行/");
  (U "いちげん /一言/");
  (U "いちじ /一時/一次/");
  (U "いちど /一度/");
  (U "いちばん /一番/");
  (U "いちぶ /一部/");
  (U "いちらん /一覧/");
  (U "いっかい /一回/");
  (U "いっき /一気/");
  (U "いっけん /一見/");
  (U "いっこう /一行/");
  (U "いっしゅ /一種/");
  (U "いっしょ /一緒/");
  (U "いったい /一体/");
  (U "いっち /一致/");
  (U "いってい /一定/");
  (U "いっとき /一時/");
  (U "いっぱつ /一発/");
  (U "いっぱん /一般/");
  (U "いっぱんてき /一般的/");
  (U "いっぽう /一方/");
  (U "いっぽん /一本/");
  (U "いつ /一/五/逸/溢/");
  (U "いと /糸/意図/");
  (U "いどう /移動/");
  (U "いな /否/");
  (U "いなか /田舎/");
  (U "いぬ /犬/");
  (U "いね /稲/");
  (U "いのしし /猪/");
  (U "いのち /命/");
  (U "いはん /違反/");
  (U "いばら /茨/");
  (U "いま /今/");
  (U "いみ /意味/");
  (U "いも /芋/");
  (U "いもうと /妹/");
  (U "いや /嫌/");
  (U "いらい /以来/依頼/");
  (U "いりぐち /入口/");
  (U "いろ /色/");
  (U "いわ /岩/");
  (U "いわし /鰯/");
  (U "いん /音/引/印/隠/陰/因/韻/院/蔭/胤/淫/飲/姻/員/咽/允/");
  (U "いんさつ /印刷/");
  (U "いんしょう /印象/");
  (U "いんじ /印字/");
  (U "いんたい /引退/");
  (U "いんち /吋/");
  (U "いんよう /引用/");
  (U "う /雨/右/有/鵜/卯/迂/羽/宇/烏/");
  (U "うい /初/");
  (U "うえ /上/");
  (U "うお /魚/");
  (U "うぐいす /鴬/");
  (U "うけとりにん /受取人/");
  (U "うさぎ /兎/");
  (U "うし /牛/丑/");
  (U "うしろ /後/");
  (U "うじ /氏/");
  (U "うす /臼/碓/");
  (U "うず /渦/");
  (U "うそ /嘘/");
  (U "うた /歌/唄/");
  (U "うたい /謡/");
  (U "うち /内/");
  (U "うちがわ /内側/");
  (U "うつ /蔚/欝/");
  (U "うつわ /器/");
  (U "うで /腕/");
  (U "うなぎ /鰻/")].
Definition dic_SKK_JISYO_S_12 : list str := Eval vm_compute in [
  (U "うね /畝/");
  (U "うば /姥/");
  (U "うぶ /産/");
  (U "うま /馬/");
  (U "うまや /厩/");
  (U "うみ /海/");
  (U "うめ /梅/");
  (U "うら /裏/浦/");
  (U "うり /瓜/");
  (U "うるう /閏/");
  (U "うるうどし /閏年/");
  (U "うるし /漆/");
  (U "うわ /上/");
  (U "うわさ /噂/");
  (U "うん /云/運/雲/");
  (U "うんえい /運営/");
  (U "うんてん /運転/");
  (U "うんよう /運用/");
  (U "え /回/会/絵/重/恵/餌/荏/江/柄/");
  (U "えい /英/映/影/鋭/詠/衛/頴/穎/盈/瑛/洩/泳/永/栄/曳/嬰/営/叡/");
  (U "えいえん /永遠/");
  (U "えいが /映画/");
  (U "えいきょう /影響/");
  (U "えいぎょう /営業/");
  (U "えいご /英語/");
  (U "えいり /営利/");
  (U "えき /駅/役/益/疫/液/易/");
  (U "えきめい /駅名/");
  (U "えだ /枝/");
  (U "えつ /閲/越/謁/悦/");
  (U "えのき /榎/");
  (U "えり /襟/");
  (U "えん /円/延/煙/淵/演/塩/鉛/遠/薗/苑/艶/縁/猿/焔/炎/沿/援/掩/怨/宴/園/厭/燕/奄/鴛/堰/");
  (U "えんぎ /演技/");
  (U "えんそう /演奏/");
  (U "お /汚/於/緒/小/尾/雄/和/");
  (U "おい /甥/笈/");
  (U "おう /横/桜/応/黄/鴎/翁/王/殴/欧/旺/押/往/奥/央/凹/皇/鴬/襖/");
  (U "おうぎ /扇/");
  (U "おうしょう /王将/");
  (U "おうとう /応答/");
  (U "おうぼ /応募/");
  (U "おうむ /鸚鵡/");
  (U "おうよう /応用/");
  (U "おお /大/");
  (U "おおかみ /狼/");
  (U "おおごえ /大声/");
  (U "おおごと /大事/");
  (U "おおさか /大阪/");
  (U "おおはば /大幅/");
  (U "おおむかし /大昔/");
  (U "おおむね /概/");
  (U "おおやけ /公/");
  (U "おか /丘/岡/");
  (U "おがわ /小川/");
  (U "おき /沖/");
  (U "おぎ /荻/");
  (U "おく /屋/奥/臆/憶/億/");
  (U "おけ /桶/");
  (U "おす /牡/雄/");
  (U "おそれ /虞/");
  (U "おっと /夫/");
  (U "おつ /乙/");
  (U "おと /音/");
  (U "おとうと /弟/");
  (U "おとこ /男/");
  (U "おとな /大人/");
  (U "おに /鬼/");
  (U "おの /斧/");
  (U "おのおの /各/");
  (U "おのれ /己/");
  (U "おび /帯/");
  (U "おも /主/面/");
  (U "おもい /思/");
  (U "おもしろ /面白/");
  (U "おもて /表/面/");
  (U "おもむき /趣/");
  (U "おや /親/");
  (U "おれ /俺/");
  (U "おろし /卸/");
  (U "おん /音/温/御/恩/穏/遠/");
  (U "おんがく /音楽/");
  (U "おんな /女/");
  (U "か /下/日/歌/化/家/仮/花/夏/火/暇/香/靴/果/蚊/霞/過/迦/貨/課/蝦/菓/華/荷/茄/苛/箇/稼/禾/禍/珂/河/架/科/寡/嫁/嘉/可/加/佳/価/伽/何/");
  (U "かい /会/回/解/開/改/界/海/階/快/介/壊/械/貝/戒/皆/絵/悔/怪/懐/街/塊/灰/甲斐/恢/廻/魁/芥/蟹/晦/拐/");
  (U "かいいん /会員/");
  (U "かいかん /快感/");
  (U "かいがい /海外/");
  (U "かいぎょう /改行/");
  (U "かいけつ /解決/");
  (U "かいこ /蚕/");
  (U "かいごう /会合/");
  (U "かいさい /開催/");
  (U "かいさつ /改札/");
  (U "かいし /開始/");
  (U "かいしゃ /会社/");
  (U "かいしゃく /解釈/");
  (U "かいしゅう /回収/");
  (U "かいしょう /解消/");
  (U "かいじょ /解除/")].
Definition dic_SKK_JISYO_S_13 : list str := Eval vm_compute in [
  (U "かいじょう /会場/");
  (U "かいすう /回数/");
  (U "かいせき /解析/");
  (U "かいせつ /解説/");
  (U "かいせん /回線/");
  (U "かいぜん /改善/");
  (U "かいそう /階層/");
  (U "かいぞう /改造/");
  (U "かいてき /快適/");
  (U "かいてん /回転/");
  (U "かいとう /回答/");
  (U "かいとうしゃ /回答者/");
  (U "かいはつ /開発/");
  (U "かいへん /改変/");
  (U "かいほう /開放/");
  (U "かいらん /回覧/");
  (U "かいり /浬/");
  (U "かいりょう /改良/");
  (U "かいわ /会話/");
  (U "かえで /楓/");
  (U "かえる /蛙/");
  (U "かお /顔/");
  (U "かおる /馨/");
  (U "かかく /価格/");
  (U "かかり /係/");
  (U "かがく /科学/");
  (U "かがみ /鏡/");
  (U "かき /下記/蛎/柿/垣/");
  (U "かぎ /鍵/鈎/");
  (U "かぎり /限/");
  (U "かく /確/各/客/覚/革/隔/閣/郭/較/赫/角/穫/獲/殻/核/格/撹/拡/廓/嚇/劃/画/");
  (U "かくご /覚悟/");
  (U "かくしゃ /各社/");
  (U "かくしゅ /各種/");
  (U "かくじつ /確実/");
  (U "かくだい /拡大/");
  (U "かくちょう /拡張/");
  (U "かくとく /獲得/");
  (U "かくにん /確認/");
  (U "かくのう /格納/");
  (U "かくほ /確保/");
  (U "かくりつ /確率/確立/");
  (U "かぐら /神楽/");
  (U "かけ /掛/");
  (U "かげ /陰/影/");
  (U "かげん /加減/");
  (U "かこ /過去/");
  (U "かご /篭/");
  (U "かさ /笠/傘/");
  (U "かさん /加算/");
  (U "かざ /風/");
  (U "かし /菓子/歌詞/橿/樫/");
  (U "かしゅ /歌手/");
  (U "かしわ /栢/");
  (U "かじ /梶/");
  (U "かじか /鰍/");
  (U "かすみ /霞/");
  (U "かず /数/");
  (U "かせつ /仮説/");
  (U "かぜ /風/風邪/");
  (U "かぞく /家族/");
  (U "かた /方/形/型/肩/潟/片/");
  (U "かたかな /片仮名/");
  (U "かたき /敵/");
  (U "かたち /形/");
  (U "かたな /刀/");
  (U "かたまり /塊/");
  (U "かち /価値/");
  (U "かっ /合/");
  (U "かっこ /括弧/");
  (U "かって /勝手/");
  (U "かっぱつ /活発/");
  (U "かつ /割/滑/且/轄/褐/葛/渇/活/括/恰/喝/");
  (U "かつお /鰹/");
  (U "かつどう /活動/");
  (U "かつやく /活躍/");
  (U "かつよう /活用/");
  (U "かて /糧/");
  (U "かてい /仮定/過程/");
  (U "かど /角/門/");
  (U "かどう /稼働/");
  (U "かどく /可読/");
  (U "かな /金/");
  (U "かなかんじへんかん /仮名漢字変換/");
  (U "かにゅう /加入/");
  (U "かね /金/鐘/");
  (U "かねつ /加熱/");
  (U "かの /彼/");
  (U "かのう /可能/");
  (U "かのうせい /可能性/");
  (U "かのじょ /彼女/");
  (U "かば /樺/椛/");
  (U "かばん /鞄/");
  (U "かふんしょう /花粉症/");
  (U "かぶ /株/蕪/");
  (U "かぶしき /株式/");
  (U "かぶと /兜/");
  (U "かべ /壁/");
  (U "かま /鎌/釜/蒲/窯/竃/");
  (U "かまど /竃/")].
Definition dic_SKK_JISYO_S_14 : list str := Eval vm_compute in [
  (U "かみ /上/紙/髪/神/");
  (U "かみなり /雷/");
  (U "かめい /仮名/");
  (U "かめん /仮面/");
  (U "かも /鴨/");
  (U "かや /萱/茅/栢/");
  (U "かゆ /粥/");
  (U "から /空/殻/唐/");
  (U "からす /烏/");
  (U "からだ /体/");
  (U "かり /仮/狩/");
  (U "かりゅう /下流/");
  (U "かれ /彼/");
  (U "かわ /側/川/革/河/皮/");
  (U "かわら /瓦/");
  (U "かん /間/換/巻/感/甘/観/完/函/関/舘/館/韓/陥/閑/鑑/還/貫/諌/莞/艦/肝/翰/缶/緩/簡/管/看/監/環/潅/澗/漢/汗/歓/款/棺/桓/柑/敢/憾/慣/患/幹/干/寛/官/姦/堪/喚/勧/勘/刊/寒/冠/侃/乾/神/甲/竿/");
  (U "かんかく /感覚/");
  (U "かんきょう /環境/");
  (U "かんきょうせってい /環境設定/");
  (U "かんきょうへんすう /環境変数/");
  (U "かんけい /関係/");
  (U "かんげい /歓迎/");
  (U "かんこく /韓国/");
  (U "かんさい /関西/");
  (U "かんしゃ /感謝/");
  (U "かんしゅう /慣習/");
  (U "かんしん /感心/");
  (U "かんじ /漢字/幹事/");
  (U "かんじょう /感情/");
  (U "かんすう /関数/");
  (U "かんすうめい /関数名/");
  (U "かんせい /完成/");
  (U "かんせつてき /間接的/");
  (U "かんぜん /完全/");
  (U "かんそう /感想/");
  (U "かんそく /観測/");
  (U "かんたん /簡単/");
  (U "かんてん /観点/");
  (U "かんとう /関東/");
  (U "かんとく /監督/");
  (U "かんどう /感動/");
  (U "かんぺき /完璧/");
  (U "かんむり /冠/");
  (U "かんり /管理/");
  (U "かんりしゃ /管理者/");
  (U "かんりにん /管理人/");
  (U "かんりょう /完了/");
  (U "かんれん /関連/");
  (U "が /我/駕/餓/雅/賀/蛾/芽/臥/画/牙/俄/峨/");
  (U "がい /外/街/害/概/骸/鎧/該/蓋/碍/涯/慨/崖/劾/凱/咳/");
  (U "がいかい /外界/");
  (U "がいこく /外国/");
  (U "がいじ /外字/");
  (U "がいとう /該当/");
  (U "がいねん /概念/");
  (U "がいぶ /外部/");
  (U "がいよう /概要/");
  (U "がく /楽/額/学/顎/岳/");
  (U "がくせい /学生/");
  (U "がくぶ /学部/");
  (U "がぞう /画像/");
  (U "がぞうしょり /画像処理/");
  (U "がぞうじょうほう /画像情報/");
  (U "がっ /合/");
  (U "がっかい /学会/");
  (U "がっかいし /学会誌/");
  (U "がっこう /学校/");
  (U "がっしょう /合唱/");
  (U "がっち /合致/");
  (U "がつ /月/");
  (U "がまん /我慢/");
  (U "がめん /画面/");
  (U "がら /柄/");
  (U "がん /元/顔/丸/含/願/頑/雁/贋/翫/岩/眼/癌/玩/巌/岸/");
  (U "き /気/記/期/機/規/基/木/起/企/帰/奇/貴/棄/危/寄/紀/希/季/黄/器/軌/既/亀/揮/鬼/岐/飢/汽/忌/生/喜/騎/幾/輝/旗/棋/稀/祈/毅/伎/机/徽/嬉/畿/");
  (U "きいろ /黄色/");
  (U "きおく /記憶/");
  (U "きかい /機械/機会/");
  (U "きかく /企画/規格/");
  (U "きかん /期間/");
  (U "きがる /気軽/");
  (U "ききょう /桔梗/");
  (U "きぎょう /企業/");
  (U "きく /鞠/菊/掬/");
  (U "きけん /危険/");
  (U "きこう /機構/");
  (U "きごう /記号/〓/↓/↑/←/→/〒/※/▼/▽/▲/△/■/□/◆/◇/◎/●/○/★/☆/§/£/¢/￥/℃/″/′/°/♀/♂/∴/∞/≧/≦/≠/÷/×/±/】/【/』/『/》/《/〉/〈/〕/〔/“/‥/…/‖/‐/―/〇/〆/々/仝/〃/ゞ/ゝ/ヾ/ヽ/￣/¨/｀/´/゜/゛/・/");
  (U "きさい /記載/");
  (U "きし /岸/");
  (U "きしゅ /機種/");
  (U "きじ /記事/");
  (U "きじすう /記事数/");
  (U "きじせんたく /記事選択/");
  (U "きじゅつ /記述/");
  (U "きじゅん /基準/");
  (U "きず /傷/");
  (U "きせき /奇跡/");
  (U "きせつ /季節/");
  (U "きそく /規則/");
  (U "きぞく /帰属/")].
Definition dic_SKK_JISYO_S_15 : list str := Eval vm_compute in [
  (U "きた /北/");
  (U "きたい /期待/");
  (U "きち /吉/");
  (U "きちょう /貴重/");
  (U "きっぷ /切符/");
  (U "きつ /詰/橘/喫/吃/吉/桔/");
  (U "きてい /規定/");
  (U "きどう /起動/");
  (U "きにゅう /記入/");
  (U "きぬ /絹/");
  (U "きぬた /砧/");
  (U "きね /杵/");
  (U "きのう /機能/昨日/");
  (U "きび /黍/");
  (U "きふ /寄付/");
  (U "きぶん /気分/");
  (U "きほん /基本/");
  (U "きほんてき /基本的/");
  (U "きぼう /希望/");
  (U "きみ /君/");
  (U "きも /肝/");
  (U "きゃく /客/脚/却/");
  (U "きゃくほん /脚本/");
  (U "きゅう /久/吸/急/泣/救/休/及/求/旧/給/糾/級/窮/究/球/灸/汲/朽/弓/宮/仇/丘/九/笈/");
  (U "きゅうがた /旧型/");
  (U "きゅうきょく /究極/");
  (U "きゅうけい /休憩/");
  (U "きゅうしゅう /九州/");
  (U "きゅうじん /求人/");
  (U "きゅうりょう /給料/");
  (U "きょ /居/去/距/許/虚/渠/挙/拠/拒/巨/鋸/");
  (U "きょう /今日/京/強/狭/橋/鏡/胸/共/香/狂/経/叫/教/驚/饗/響/郷/興/脅/矯/況/挟/恭/恐/怯/彊/峡/境/喬/卿/匡/協/凶/競/兇/僑/侠/供/享/亨/兄/");
  (U "きょういく /教育/");
  (U "きょうきゅう /供給/");
  (U "きょうくん /教訓/");
  (U "きょうしゅく /恐縮/");
  (U "きょうせい /強制/");
  (U "きょうちょう /強調/");
  (U "きょうつう /共通/");
  (U "きょうと /京都/");
  (U "きょうふ /恐怖/");
  (U "きょうみ /興味/");
  (U "きょうゆう /共有/");
  (U "きょうりつ /共立/");
  (U "きょうりょく /協力/強力/");
  (U "きょか /許可/");
  (U "きょく /曲/局/極/");
  (U "きょくしょう /極小/");
  (U "きょくたん /極端/");
  (U "きょくめい /曲名/");
  (U "きょくもく /曲目/");
  (U "きょじん /巨人/");
  (U "きょだい /巨大/");
  (U "きょねん /去年/");
  (U "きょひ /拒否/");
  (U "きょり /距離/");
  (U "きよみず /清水/");
  (U "きり /桐/霧/");
  (U "きろく /記録/");
  (U "きろめーとる /粁/");
  (U "きわ /際/");
  (U "きん /今/近/金/筋/謹/襟/衿/菌/緊/禽/禁/琴/欽/欣/斤/錦/巾/均/勤/僅/芹/");
  (U "きんき /近畿/");
  (U "きんけん /金券/");
  (U "きんし /禁止/");
  (U "きんじょ /近所/");
  (U "きんぺん /近辺/");
  (U "きんぼう /近傍/");
  (U "きんむ /勤務/");
  (U "ぎ /技/疑/議/誼/蟻/義/祇/欺/擬/戯/宜/妓/儀/偽/犠/");
  (U "ぎじゅつ /技術/");
  (U "ぎじゅつしゃ /技術者/");
  (U "ぎじゅつてき /技術的/");
  (U "ぎせい /犠牲/");
  (U "ぎふ /岐阜/");
  (U "ぎもん /疑問/");
  (U "ぎゃく /逆/虐/");
  (U "ぎゃくかんすう /逆関数/");
  (U "ぎゃくしゅう /逆襲/");
  (U "ぎゅう /牛/");
  (U "ぎゅうにゅう /牛乳/");
  (U "ぎょ /魚/御/禦/漁/");
  (U "ぎょう /行/仰/業/暁/尭/凝/形/");
  (U "ぎょうかい /業界/");
  (U "ぎょうしゃ /業者/");
  (U "ぎょく /玉/");
  (U "ぎろん /議論/");
  (U "ぎん /銀/吟/");
  (U "く /口/苦/工/駈/駆/躯/矩/玖/狗/区/句/倶/九/供/貢/久/宮/庫/功/紅/駒/");
  (U "くい /杭/");
  (U "くう /空/");
  (U "くうかん /空間/");
  (U "くうき /空気/");
  (U "くうはく /空白/");
  (U "くき /茎/");
  (U "くぎり /区切/");
  (U "くさ /草/");
  (U "くさり /鎖/");
  (U "くし /櫛/串/");
  (U "くしろ /釧路/")].
Definition dic_SKK_JISYO_S_16 : list str := Eval vm_compute in [
  (U "くじら /鯨/");
  (U "くすり /薬/");
  (U "くず /屑/");
  (U "くそ /糞/");
  (U "くだ /管/");
  (U "くち /口/");
  (U "くちびる /唇/");
  (U "くつ /靴/掘/沓/窟/屈/");
  (U "くつわ /轡/");
  (U "くとうてん /句読点/");
  (U "くどう /駆動/");
  (U "くに /国/");
  (U "くび /首/");
  (U "くふう /工夫/");
  (U "くべつ /区別/");
  (U "くぼ /窪/");
  (U "くま /熊/隈/");
  (U "くまがい /熊谷/");
  (U "くまがや /熊谷/");
  (U "くみ /組/");
  (U "くみあい /組合/");
  (U "くめ /粂/");
  (U "くも /雲/蜘蛛/");
  (U "くら /蔵/倉/");
  (U "くらい /位/");
  (U "くり /繰/栗/");
  (U "くるま /車/");
  (U "くれない /紅/");
  (U "くろ /黒/");
  (U "くろう /苦労/");
  (U "くわ /鍬/桑/");
  (U "くん /君/訓/薫/勲/");
  (U "ぐ /虞/愚/具/");
  (U "ぐあい /具合/");
  (U "ぐう /隅/遇/寓/偶/宮/");
  (U "ぐうぜん /偶然/");
  (U "ぐたいてき /具体的/");
  (U "ぐん /群/郡/軍/");
  (U "け /気/化/家/毛/怪/祁/卦/仮/");
  (U "けい /形/型/系/兄/計/継/恵/軽/経/傾/鶏/頚/警/詣/蛍/荊/茎/罫/繋/渓/桂/景/敬/携/掲/憩/慧/慶/径/契/珪/圭/啓/刑/係/京/競/境/稽/畦/");
  (U "けいい /敬意/経緯/");
  (U "けいか /経過/");
  (U "けいかく /計画/");
  (U "けいかん /警官/");
  (U "けいけん /経験/");
  (U "けいこ /稽古/");
  (U "けいこう /傾向/");
  (U "けいさい /掲載/");
  (U "けいさん /計算/");
  (U "けいさんき /計算機/");
  (U "けいしき /形式/");
  (U "けいしょう /継承/");
  (U "けいじ /刑事/");
  (U "けいせん /罫線/");
  (U "けいぞく /継続/");
  (U "けいたい /形態/");
  (U "けいやく /契約/");
  (U "けいゆ /経由/");
  (U "けいれつ /系列/");
  (U "けいろ /経路/");
  (U "けが /怪我/");
  (U "けさ /袈裟/");
  (U "けしょう /化粧/");
  (U "けた /桁/");
  (U "けっか /結果/");
  (U "けっきょく /結局/");
  (U "けっこう /結構/");
  (U "けっこん /結婚/");
  (U "けっさく /傑作/");
  (U "けってい /決定/");
  (U "けってん /欠点/");
  (U "けつ /穴/決/結/訣/血/潔/欠/傑/");
  (U "けつごう /結合/");
  (U "けつろん /結論/");
  (U "けむり /煙/");
  (U "けもの /獣/");
  (U "けん /見/間/件/研/肩/犬/嫌/権/験/顕/険/遣/軒/賢/謙/県/絹/硯/献/牽/検/捲/拳/懸/憲/建/堅/圏/剣/券/兼/健/倦/倹/繭/鍵/喧/");
  (U "けんい /権威/");
  (U "けんか /喧嘩/");
  (U "けんきゅう /研究/");
  (U "けんきゅうしつ /研究室/");
  (U "けんきゅうしゃ /研究者/");
  (U "けんきゅうしょ /研究所/");
  (U "けんきゅうじょ /研究所/");
  (U "けんこう /健康/");
  (U "けんさく /検索/");
  (U "けんじょう /謙譲/");
  (U "けんせつてき /建設的/");
  (U "けんとう /検討/");
  (U "けんり /権利/");
  (U "げ /下/外/解/");
  (U "げい /鯨/迎/芸/");
  (U "げき /激/撃/戟/劇/隙/");
  (U "げきじょう /劇場/");
  (U "げっかん /月刊/");
  (U "げつ /月/");
  (U "げん /原/現/言/限/源/元/減/厳/玄/弦/幻/舷/験/嫌/絃/諺/眼/");
  (U "げんいん /原因/");
  (U "げんき /元気/");
  (U "げんきゅう /言及/")].
Definition dic_SKK_JISYO_S_17 : list str := Eval vm_compute in [
  (U "げんこう /原稿/");
  (U "げんご /言語/");
  (U "げんさく /原作/");
  (U "げんざい /現在/");
  (U "げんし /原子/");
  (U "げんしょう /現象/");
  (U "げんじつ /現実/");
  (U "げんじつてき /現実的/");
  (U "げんじょう /現状/");
  (U "げんそく /原則/");
  (U "げんてい /限定/");
  (U "げんてん /原点/");
  (U "げんぱつ /原発/");
  (U "げんみつ /厳密/");
  (U "こ /子/小/個/故/古/己/固/庫/弧/去/拠/戸/呼/湖/粉/誇/顧/黄/木/鼓/孤/乎/虎/雇/股/胡/枯/狐/姑/虚/跨/鈷/糊/菰/");
  (U "こい /恋/鯉/");
  (U "こう /行/高/構/工/公/向/効/校/交/考/項/稿/後/更/講/好/広/候/幸/康/抗/紅/降/購/功/貢/光/航/甲/口/格/興/荒/恒/港/神/孝/皇/攻/厚/耕/鉱/慌/酵/肯/硬/浩/江/梗/拘/巧/孔/仰/香/鋼/郊/衡/綱/洪/控/晃/黄/勾/弘/侯/絞/溝/坑/膏/腔/昂/紘/宏/鴻/喉/佼/垢/杭/倖/耗/閤/砿/肱/庚/后/巷/糠/");
  (U "こうい /行為/");
  (U "こうえん /講演/公園/");
  (U "こうか /効果/高架/");
  (U "こうかい /公開/高階/");
  (U "こうかん /交換/");
  (U "こうがく /工学/");
  (U "こうぎ /抗議/");
  (U "こうけん /貢献/");
  (U "こうこう /高校/");
  (U "こうこく /広告/");
  (U "こうさつ /考察/");
  (U "こうしゃ /後者/");
  (U "こうしん /更新/");
  (U "こうじ /麹/");
  (U "こうせい /構成/");
  (U "こうそく /高速/");
  (U "こうそくか /高速化/");
  (U "こうぞう /構造/");
  (U "こうちく /構築/");
  (U "こうちゃ /紅茶/");
  (U "こうど /高度/");
  (U "こうどう /行動/");
  (U "こうにゅう /購入/");
  (U "こうはん /後半/");
  (U "こうひょう /公表/");
  (U "こうほ /候補/");
  (U "こうもく /項目/");
  (U "こうりつ /効率/");
  (U "こうりょ /考慮/");
  (U "こえ /声/肥/");
  (U "こおり /氷/");
  (U "こく /国/黒/鵠/酷/穀/告/刻/克/石/谷/");
  (U "こくさい /国際/");
  (U "こくない /国内/");
  (U "ここの /九/");
  (U "こころ /心/");
  (U "こころざし /志/");
  (U "こし /腰/");
  (U "こしき /甑/");
  (U "こしょう /故障/");
  (U "こじん /個人/");
  (U "こじんてき /個人的/");
  (U "こせい /個性/");
  (U "こたえ /答/");
  (U "こつ /骨/惚/忽/");
  (U "こてい /固定/");
  (U "こと /事/異/言/殊/琴/");
  (U "ことがら /事柄/");
  (U "ことし /今年/");
  (U "ことば /言葉/");
  (U "ことぶき /寿/");
  (U "こども /子供/");
  (U "こな /粉/");
  (U "こべつ /個別/");
  (U "こま /狛/駒/");
  (U "こまいぬ /狛/");
  (U "こみ /込/");
  (U "こむ /込/");
  (U "こめ /米/");
  (U "こも /菰/");
  (U "こもじ /小文字/");
  (U "こよみ /暦/");
  (U "これ /此/");
  (U "ころ /頃/");
  (U "ころも /衣/");
  (U "こわ /声/");
  (U "こん /今/金/混/根/魂/艮/紺/痕/梱/昆/昏/懇/恨/婚/墾/坤/困/献/建/");
  (U "こんかい /今回/");
  (U "こんきょ /根拠/");
  (U "こんげつ /今月/");
  (U "こんげつごう /今月号/");
  (U "こんご /今後/");
  (U "こんざつ /混雑/");
  (U "こんしゅう /今週/");
  (U "こんじょう /根性/");
  (U "こんど /今度/");
  (U "こんどう /混同/");
  (U "こんなん /困難/");
  (U "こんにち /今日/");
  (U "こんねん /今年/");
  (U "こんぽん /根本/");
  (U "こんや /今夜/");
  (U "こんらん /混乱/")].
Definition dic_SKK_JISYO_S_18 : list str := Eval vm_compute in [
  (U "ご /後/語/御/誤/護/碁/梧/悟/吾/呉/午/伍/互/五/期/娯/");
  (U "ごいけん /御意見/");
  (U "ごう /合/号/強/轟/豪/濠/拷/壕/劫/剛/業/郷/");
  (U "ごうい /合意/");
  (U "ごうけい /合計/");
  (U "ごうせい /合成/");
  (U "ごかい /誤解/");
  (U "ごく /獄/極/");
  (U "ごご /午後/");
  (U "ごじゅん /語順/");
  (U "ごぜん /午前/");
  (U "ごらく /娯楽/");
  (U "ごろ /頃/");
  (U "ごん /言/権/");
  (U "ごんご /言語/");
  (U "さ /差/左/茶/鎖/詐/砂/瑳/沙/査/唆/叉/佐/些/再/作/");
  (U "さい /際/最/歳/才/西/再/妻/載/裁/菜/細/斎/祭/砦/砕/犀/采/災/済/栽/採/彩/宰/塞/哉/催/債/財/殺/切/");
  (U "さいかい /最下位/");
  (U "さいきょう /最強/");
  (U "さいきん /最近/");
  (U "さいこう /最高/");
  (U "さいご /最後/");
  (U "さいしゅう /最終/");
  (U "さいしゅうてき /最終的/");
  (U "さいしょ /最初/");
  (U "さいしょう /最小/");
  (U "さいしょうち /最小値/");
  (U "さいしん /最新/");
  (U "さいしんばん /最新版/");
  (U "さいせい /再生/");
  (U "さいそう /再送/");
  (U "さいたま /埼玉/");
  (U "さいだい /最大/");
  (U "さいちゅう /最中/");
  (U "さいてい /最低/");
  (U "さいど /再度/");
  (U "さいはいふ /再配布/");
  (U "さいぼう /細胞/");
  (U "さいよう /採用/");
  (U "さいりよう /再利用/");
  (U "さお /竿/");
  (U "さか /酒/坂/阪/逆/");
  (U "さかい /堺/境/");
  (U "さかき /榊/");
  (U "さかさ /逆/");
  (U "さかずき /杯/");
  (U "さかな /魚/肴/");
  (U "さかや /酒屋/");
  (U "さが /性/嵯峨/");
  (U "さき /先/碕/埼/崎/咲/");
  (U "さぎ /鷺/");
  (U "さぎょう /作業/");
  (U "さく /作/冊/錯/索/策/窄/柵/朔/昨/搾/咋/削/酢/");
  (U "さくしゃ /作者/");
  (U "さくじつ /昨日/");
  (U "さくじょ /削除/");
  (U "さくせい /作成/");
  (U "さくねん /昨年/");
  (U "さくひん /作品/");
  (U "さくら /桜/");
  (U "さけ /酒/鮭/");
  (U "ささ /笹/");
  (U "さしだしにん /差出人/");
  (U "さじ /匙/");
  (U "さち /幸/");
  (U "さっ /早/");
  (U "さっそく /早速/");
  (U "さつ /札/冊/擦/薩/殺/撮/察/刷/");
  (U "さつき /皐/");
  (U "さと /里/");
  (U "さば /鯖/");
  (U "さび /錆/寂/");
  (U "さま /様/");
  (U "さむらい /侍/");
  (U "さめ /鮫/");
  (U "さら /更/皿/");
  (U "さらす /晒/");
  (U "さる /猿/");
  (U "さわ /沢/");
  (U "さん /山/三/散/餐/酸/賛/讃/蚕/纂/算/産/燦/桟/撒/惨/参/傘/");
  (U "さんか /参加/");
  (U "さんかしゃ /参加者/");
  (U "さんこう /参考/");
  (U "さんこうしりょう /参考資料/");
  (U "さんこうぶんけん /参考文献/");
  (U "さんご /珊瑚/");
  (U "さんしょう /参照/");
  (U "さんせい /賛成/");
  (U "さんちょう /山頂/");
  (U "さんろく /山麓/");
  (U "ざ /座/挫/坐/");
  (U "ざい /財/在/罪/材/剤/");
  (U "ざっし /雑誌/");
  (U "ざつ /雑/");
  (U "ざん /残/暫/斬/");
  (U "ざんねん /残念/");
  (U "し /私/子/氏/指/紙/覗/使/誌/死/旨/姿/姉/伺/至/師/歯/止/試/飼/雌/賜/資/諮/詩/詞/視/脂/肢/紫/糸/祉/獅/枝/施/斯/孜/支/思/志/市/屍/始/士/四/嗣/史/司/刺/仔/仕/次/示/自/矢/");
  (U "しあい /試合/");
  (U "しあげ /仕上/");
  (U "しお /汐/塩/潮/")].
Definition dic_SKK_JISYO_S_19 : list str := Eval vm_compute in [
  (U "しか /鹿/");
  (U "しかい /司会/");
  (U "しかいしゃ /司会者/");
  (U "しかく /資格/");
  (U "しかた /仕方/");
  (U "しかん /弛緩/");
  (U "しき /色/式/拭/識/織/");
  (U "しぎ /鴫/");
  (U "しげん /資源/");
  (U "しこう /指向/");
  (U "しこく /四国/");
  (U "しごと /仕事/");
  (U "しし /宍/");
  (U "しじ /指示/支持/");
  (U "しじょう /史上/");
  (U "しず /静/");
  (U "しずく /雫/滴/");
  (U "しせい /姿勢/");
  (U "しぜん /自然/");
  (U "しそう /思想/");
  (U "した /下/舌/");
  (U "しだい /次第/");
  (U "しち /質/七/");
  (U "しっぱい /失敗/");
  (U "しつ /失/質/疾/漆/湿/悉/室/嫉/執/叱/");
  (U "しつもん /質問/");
  (U "しつれい /失礼/");
  (U "してい /指定/");
  (U "してき /指摘/");
  (U "してつ /私鉄/");
  (U "しとみ /蔀/");
  (U "しな /品/");
  (U "しの /篠/");
  (U "しば /芝/柴/");
  (U "しばしば /屡/");
  (U "しぶ /渋/");
  (U "しぶや /渋谷/");
  (U "しべ /蕊/");
  (U "しぼう /脂肪/");
  (U "しま /縞/島/");
  (U "しみず /清水/");
  (U "しめい /氏名/");
  (U "しも /下/");
  (U "しもて /下手/");
  (U "しゃ /車/者/社/煮/写/斜/遮/謝/紗/赦/捨/射/舎/砂/");
  (U "しゃいん /社員/");
  (U "しゃかい /社会/");
  (U "しゃく /釈/借/尺/石/爵/酌/杓/灼/錫/昔/勺/");
  (U "しゃしょう /車掌/");
  (U "しゃしん /写真/");
  (U "しゃない /社内/");
  (U "しゃりょう /車両/");
  (U "しゅ /手/主/種/修/首/酒/取/趣/腫/珠/狩/殊/朱/守/衆/");
  (U "しゅう /集/修/週/秋/祝/拾/習/醜/酬/輯/蹴/襲/衆/舟/臭/繍/終/秀/洲/愁/州/就/宗/周/収/囚/執/讐/蒐/酋/");
  (U "しゅうい /周囲/");
  (U "しゅうかん /週間/");
  (U "しゅうごう /集合/");
  (U "しゅうしゅう /蒐集/");
  (U "しゅうせい /修正/");
  (U "しゅうそく /収束/");
  (U "しゅうだん /集団/");
  (U "しゅうちょう /酋長/");
  (U "しゅうてん /終点/");
  (U "しゅうはすう /周波数/");
  (U "しゅうへん /周辺/");
  (U "しゅうまつ /週末/");
  (U "しゅうりょう /終了/");
  (U "しゅうろん /修論/");
  (U "しゅく /宿/祝/粛/縮/淑/夙/叔/");
  (U "しゅご /主語/");
  (U "しゅさい /主催/");
  (U "しゅし /主旨/");
  (U "しゅじん /主人/");
  (U "しゅだい /主題/");
  (U "しゅだん /手段/");
  (U "しゅちょう /主張/");
  (U "しゅっか /出荷/");
  (U "しゅっちょう /出張/");
  (U "しゅっぱつ /出発/");
  (U "しゅっぱん /出版/");
  (U "しゅっぱんしゃ /出版社/");
  (U "しゅつ /出/");
  (U "しゅつえん /出演/");
  (U "しゅつりょく /出力/");
  (U "しゅほう /手法/");
  (U "しゅみ /趣味/");
  (U "しゅるい /種類/");
  (U "しゅん /春/瞬/駿/舜/峻/俊/竣/");
  (U "しゅんかん /瞬間/");
  (U "しゅんこう /竣工/");
  (U "しょ /所/初/書/暑/諸/藷/薯/署/緒/庶/処/渚/曙/");
  (U "しょう /小/証/商/象/少/消/勝/賞/将/称/障/照/症/章/承/省/償/唱/正/紹/昭/掌/詳/傷/衝/奨/生/渉/笑/性/焼/晶/招/焦/祥/彰/召/装/裳/相/昇/床/松/庄/尚/精/昌/訟/匠/捷/抄/鐘/肖/硝/梢/哨/醤/礁/娼/上/鞘/詔/声/姓/樟/鍾/星/政/宵/升/青/沼/廠/蒋/妾/嘗/鉦/樵/粧/湘/蕉/");
  (U "しょうかい /紹介/");
  (U "しょうがい /障害/");
  (U "しょうきょ /消去/");
  (U "しょうぎょう /商業/");
  (U "しょうぎょうてき /商業的/");
  (U "しょうこ /証拠/");
  (U "しょうごう /照合/");
  (U "しょうさい /詳細/")].
Definition dic_SKK_JISYO_S_20 : list str := Eval vm_compute in [
  (U "しょうじょ /少女/");
  (U "しょうじょう /症状/");
  (U "しょうせつ /小説/");
  (U "しょうなん /湘南/");
  (U "しょうねん /少年/");
  (U "しょうばい /商売/");
  (U "しょうひ /消費/");
  (U "しょうひしゃ /消費者/");
  (U "しょうひょう /商標/");
  (U "しょうひょうけん /商標権/");
  (U "しょうひん /商品/");
  (U "しょうぶ /勝負/菖蒲/");
  (U "しょうめい /証明/");
  (U "しょうよう /商用/");
  (U "しょうらい /将来/");
  (U "しょうりゃく /省略/");
  (U "しょうわ /昭和/");
  (U "しょき /初期/");
  (U "しょきけい /初期型/");
  (U "しょく /色/燭/拭/食/蝕/触/職/織/殖/植/飾/埴/嘱/");
  (U "しょくじ /食事/");
  (U "しょくどう /食堂/");
  (U "しょしんしゃ /初心者/");
  (U "しょぞく /所属/");
  (U "しょめい /署名/");
  (U "しょゆう /所有/");
  (U "しょり /処理/");
  (U "しょりけい /処理系/");
  (U "しよう /使用/仕様/");
  (U "しようほう /使用法/");
  (U "しら /白/");
  (U "しり /尻/");
  (U "しりょう /資料/");
  (U "しる /汁/");
  (U "しるし /印/");
  (U "しれい /指令/");
  (U "しろ /城/白/代/");
  (U "しろうと /素人/");
  (U "しん /心/新/真/親/身/神/伸/森/寝/辛/辰/進/信/震/針/診/薪/芯/臣/紳/秦/疹/申/深/浸/榛/晋/振/慎/審/娠/唇/侵/請/");
  (U "しんかんせん /新幹線/");
  (U "しんがい /侵害/");
  (U "しんけい /神経/");
  (U "しんけん /真剣/");
  (U "しんごう /信号/");
  (U "しんさく /新作/");
  (U "しんさつ /診察/");
  (U "しんしゃ /新車/");
  (U "しんしゅつ /新出/");
  (U "しんじゅく /新宿/");
  (U "しんじん /新人/");
  (U "しんせいひん /新製品/");
  (U "しんせだい /新世代/");
  (U "しんせつ /親切/新設/");
  (U "しんぱい /心配/");
  (U "しんぶん /新聞/");
  (U "しんぽ /進歩/");
  (U "しんや /深夜/");
  (U "しんよう /信用/");
  (U "しんらい /信頼/");
  (U "しんらいせい /信頼性/");
  (U "しんわ /神話/");
  (U "じ /時/事/自/字/次/示/地/辞/治/寺/磁/持/似/路/児/耳/慈/滋/痔/侍/除/仕/璽/爾/而/蒔/");
  (U "じいしき /自意識/");
  (U "じかい /次回/");
  (U "じかん /時間/");
  (U "じき /直/時期/");
  (U "じぎょう /事業/");
  (U "じぎょうぶ /事業部/");
  (U "じく /宍/軸/竺/");
  (U "じけん /事件/");
  (U "じこ /事故/自己/");
  (U "じこう /事項/");
  (U "じこく /時刻/");
  (U "じさく /自作/");
  (U "じしょ /辞書/");
  (U "じしん /自身/自信/地震/");
  (U "じじつ /事実/");
  (U "じじょう /事情/");
  (U "じせい /時制/");
  (U "じたい /自体/事態/");
  (U "じたく /自宅/");
  (U "じだい /時代/");
  (U "じっ /十/");
  (U "じっか /実家/");
  (U "じっけん /実験/");
  (U "じっこう /実行/");
  (U "じっさい /実際/");
  (U "じっしゅう /実習/");
  (U "じっせき /実績/");
  (U "じったい /実体/");
  (U "じつ /日/実/");
  (U "じつげん /実現/");
  (U "じつざい /実在/");
  (U "じつよう /実用/");
  (U "じつようか /実用化/");
  (U "じつれい /実例/");
  (U "じてん /時点/");
  (U "じてんしゃ /自転車/");
  (U "じどう /自動/");
  (U "じどうしゃ /自動車/")].
Definition dic_SKK_JISYO_S_21 : list str := Eval vm_compute in [
  (U "じどうてき /自動的/");
  (U "じぶん /自分/");
  (U "じむきょく /事務局/");
  (U "じもと /地元/");
  (U "じゃ /邪/蛇/");
  (U "じゃく /弱/若/寂/着/惹/");
  (U "じゃっかん /若干/");
  (U "じゃま /邪魔/");
  (U "じゅ /受/需/綬/樹/授/寿/呪/儒/就/");
  (U "じゅう /重/十/住/従/渋/柔/充/獣/銃/縦/戎/汁/什/拾/");
  (U "じゅうし /重視/");
  (U "じゅうしょ /住所/");
  (U "じゅうしん /重心/");
  (U "じゅうたい /渋滞/");
  (U "じゅうふく /重複/");
  (U "じゅうぶん /十分/");
  (U "じゅうよう /重要/");
  (U "じゅうらい /従来/");
  (U "じゅく /熟/塾/");
  (U "じゅしん /受信/");
  (U "じゅつ /述/術/");
  (U "じゅもん /呪文/");
  (U "じゅよう /需要/");
  (U "じゅん /順/醇/遵/巡/純/盾/潤/準/淳/殉/旬/循/准/楯/");
  (U "じゅんかい /巡回/");
  (U "じゅんすい /純粋/");
  (U "じゅんちょう /順調/");
  (U "じゅんばん /順番/");
  (U "じゅんび /準備/");
  (U "じゆう /自由/");
  (U "じょ /女/如/除/恕/徐/序/叙/助/鋤/");
  (U "じょう /上/情/常/場/状/乗/条/城/定/譲/丈/剰/浄/蒸/醸/冗/錠/畳/成/壌/静/盛/嬢/杖/丞/穣/擾/");
  (U "じょうい /上位/");
  (U "じょうき /上記/");
  (U "じょうきょう /状況/");
  (U "じょうけん /条件/");
  (U "じょうし /上司/");
  (U "じょうしき /常識/");
  (U "じょうたい /状態/");
  (U "じょうだん /冗談/");
  (U "じょうほう /情報/");
  (U "じょうほうしょり /情報処理/");
  (U "じょうらん /擾乱/");
  (U "じょうりゅう /上流/");
  (U "じょうれん /常連/");
  (U "じょがい /除外/");
  (U "じょく /辱/");
  (U "じょし /女子/");
  (U "じょしゅ /助手/");
  (U "じょせい /女性/");
  (U "じょゆう /女優/");
  (U "じょりょく /助力/");
  (U "じん /人/尽/靭/陣/迅/訊/腎/甚/尋/壬/塵/刃/仁/神/臣/");
  (U "じんこう /人工/");
  (U "じんせい /人生/");
  (U "す /素/須/子/守/巣/酢/州/主/数/笥/諏/");
  (U "すい /水/吹/錘/錐/酔/遂/衰/翠/粋/睡/炊/推/帥/垂/出/穂/");
  (U "すいしん /推進/");
  (U "すいそく /推測/");
  (U "すいろん /推論/");
  (U "すう /数/雛/趨/枢/嵩/崇/");
  (U "すうじ /数字/");
  (U "すうち /数値/");
  (U "すうねん /数年/");
  (U "すうふん /数分/");
  (U "すえ /末/");
  (U "すえひろ /末広/");
  (U "すがた /姿/");
  (U "すき /隙/鋤/");
  (U "すぎ /椙/杉/");
  (U "すけ /介/助/");
  (U "すげ /菅/");
  (U "すこぶる /頗/");
  (U "すじ /筋/");
  (U "すず /鈴/");
  (U "すずめ /雀/");
  (U "すそ /裾/");
  (U "すで /既/");
  (U "すな /砂/");
  (U "すなお /素直/");
  (U "すべて /総/");
  (U "すみ /隅/炭/墨/");
  (U "すり /摺/");
  (U "すわ /諏訪/");
  (U "すん /寸/");
  (U "ず /図/頭/豆/事/厨/");
  (U "ずい /髄/瑞/随/");
  (U "ずいぶん /随分/");
  (U "ずけい /図形/");
  (U "ずし /逗子/");
  (U "せ /世/背/瀬/畝/施/");
  (U "せい /生/声/世/星/成/性/西/製/正/姓/青/勢/斉/静/醒/逝/請/誓/誠/聖/精/盛/清/栖/棲/晴/整/政/征/制/凄/省/歳/情/婿/背/牲/");
  (U "せいか /成果/");
  (U "せいかい /正解/");
  (U "せいかく /正確/性格/");
  (U "せいかつ /生活/");
  (U "せいき /世紀/");
  (U "せいきゅう /請求/");
  (U "せいぎょ /制御/");
  (U "せいげん /制限/")].
Definition dic_SKK_JISYO_S_22 : list str := Eval vm_compute in [
  (U "せいこう /成功/");
  (U "せいしき /正式/");
  (U "せいしつ /性質/");
  (U "せいしゅん /青春/");
  (U "せいしん /精神/");
  (U "せいじょう /正常/");
  (U "せいせい /生成/");
  (U "せいせき /成績/");
  (U "せいちょう /成長/");
  (U "せいでんき /静電気/");
  (U "せいとう /正当/");
  (U "せいとくてき /生得的/");
  (U "せいど /制度/");
  (U "せいのう /性能/");
  (U "せいひん /製品/");
  (U "せいやく /制約/");
  (U "せいり /整理/");
  (U "せいりつ /成立/");
  (U "せいれき /西暦/");
  (U "せかい /世界/");
  (U "せかいじゅう /世界中/");
  (U "せき /昔/積/席/夕/関/寂/碩/蹟/跡/赤/責/脊/績/籍/石/析/斥/戚/惜/隻/堰/咳/");
  (U "せきにん /責任/");
  (U "せけん /世間/");
  (U "せたがや /世田谷/");
  (U "せち /節/");
  (U "せっきょくてき /積極的/");
  (U "せっけい /設計/");
  (U "せっけん /石鹸/");
  (U "せってい /設定/");
  (U "せつ /雪/説/節/切/設/折/窃/摂/接/拙/殺/");
  (U "せつじょく /雪辱/");
  (U "せつぞく /接続/");
  (U "せつめい /説明/");
  (U "せみ /蝉/");
  (U "せり /芹/");
  (U "せりふ /台詞/");
  (U "せわ /世話/");
  (U "せわにん /世話人/");
  (U "せん /先/線/戦/繊/船/川/選/占/鮮/閃/銑/銭/遷/践/賎/詮/薦/腺/羨/箭/穿/旋/煽/煎/潜/染/洗/浅/泉/栓/撰/扇/尖/専/宣/千/仙/舛/");
  (U "せんげん /宣言/");
  (U "せんこう /先行/");
  (U "せんしゅ /選手/");
  (U "せんしゅう /先週/");
  (U "せんしゅけん /選手権/");
  (U "せんじつ /先日/");
  (U "せんせい /先生/");
  (U "せんそう /戦争/");
  (U "せんたく /選択/洗濯/");
  (U "せんだん /栴檀/");
  (U "せんち /糎/");
  (U "せんちめーとる /糎/");
  (U "せんでん /宣伝/");
  (U "せんとう /先頭/");
  (U "せんぱい /先輩/");
  (U "せんめい /鮮明/");
  (U "せんもん /専門/");
  (U "せんもんか /専門家/");
  (U "せんよう /専用/");
  (U "せんろ /線路/");
  (U "ぜ /是/");
  (U "ぜい /税/脆/説/");
  (U "ぜいきん /税金/");
  (U "ぜったい /絶対/");
  (U "ぜつ /絶/舌/");
  (U "ぜに /銭/");
  (U "ぜひ /是非/");
  (U "ぜん /前/全/膳/繕/禅/然/漸/善/");
  (U "ぜんいん /全員/");
  (U "ぜんかい /前回/");
  (U "ぜんかく /全角/");
  (U "ぜんかくかな /全角仮名/");
  (U "ぜんこく /全国/");
  (U "ぜんこくてき /全国的/");
  (U "ぜんしゃ /前者/");
  (U "ぜんじんるい /全人類/");
  (U "ぜんぜん /全然/");
  (U "ぜんたい /全体/");
  (U "ぜんてい /前提/");
  (U "ぜんぶ /全部/");
  (U "ぜんぷく /全幅/");
  (U "そ /組/鼠/遡/阻/訴/蘇/素/粗/租/祖/礎/疎/疏/狙/楚/曽/曾/岨/塑/想/措/");
  (U "そう /騒/総/層/相/想/送/早/霜/鎗/遭/走/装/藻/蒼/葬/荘/草/聡/綜/糟/窓/痩/争/燥/漕/槽/槍/巣/曹/操/掻/挿/掃/捜/惣/宋/爽/奏/壮/喪/倉/叢/双/創/僧/宗/贈/匝/");
  (U "そうおう /相応/");
  (U "そうさ /操作/捜査/匝瑳/");
  (U "そうさく /創作/");
  (U "そうしん /送信/");
  (U "そうぞう /想像/");
  (U "そうだん /相談/");
  (U "そうち /装置/");
  (U "そうちゃく /装着/");
  (U "そうてい /想定/");
  (U "そうとう /相当/");
  (U "そうほう /双方/");
  (U "そうりょう /送料/");
  (U "そうろう /候/");
  (U "そがい /阻害/");
  (U "そく /足/側/速/息/即/測/束/捉/則/促/");
  (U "そくせん /側線/");
  (U "そくど /速度/")].
Definition dic_SKK_JISYO_S_23 : list str := Eval vm_compute in [
  (U "そこ /底/");
  (U "そしき /組織/");
  (U "そつ /率/卒/");
  (U "そつぎょう /卒業/");
  (U "そで /袖/");
  (U "そと /外/");
  (U "その /其/園/");
  (U "そば /蕎麦/");
  (U "そぼ /祖母/");
  (U "そら /空/");
  (U "それがし /某/");
  (U "そん /損/存/遜/村/尊/孫/");
  (U "そんけい /尊敬/");
  (U "そんざい /存在/");
  (U "そんちょう /尊重/");
  (U "ぞう /臓/贈/造/蔵/憎/増/像/雑/象/");
  (U "ぞうか /増加/");
  (U "ぞく /続/族/賊/属/俗/");
  (U "ぞくせい /属性/");
  (U "ぞん /存/");
  (U "ぞんじ /存知/");
  (U "た /他/太/多/詑/汰/田/手/");
  (U "たい /大/代/袋/体/隊/対/態/鯛/逮/退/貸/苔/腿/胎/滞/泰/替/戴/怠/待/帯/岱/耐/堆/台/太/黛/");
  (U "たいおう /対応/");
  (U "たいかい /大会/");
  (U "たいけい /体系/");
  (U "たいしょ /対処/");
  (U "たいしょう /対象/大将/");
  (U "たいしょうせい /対称性/");
  (U "たいせつ /大切/");
  (U "たいてい /大抵/");
  (U "たいでん /帯電/");
  (U "たいど /態度/");
  (U "たいふう /台風/");
  (U "たいへん /大変/");
  (U "たいりょう /大量/");
  (U "たえ /妙/");
  (U "たか /鷹/高/");
  (U "たから /宝/");
  (U "たき /瀧/滝/");
  (U "たきぎ /薪/");
  (U "たく /鐸/託/琢/沢/拓/択/托/宅/啄/卓/度/濯/");
  (U "たくさん /沢山/");
  (U "たけ /茸/岳/丈/竹/");
  (U "たこ /蛸/凧/");
  (U "たしょう /多少/");
  (U "たすう /多数/");
  (U "たたみ /畳/");
  (U "ただ /唯/只/");
  (U "たち /館/");
  (U "たちぎ /立木/");
  (U "たちば /立場/");
  (U "たつ /辰/竜/達/");
  (U "たつみ /巽/");
  (U "たて /竪/縦/楯/");
  (U "たな /棚/");
  (U "たに /谷/");
  (U "たにん /他人/");
  (U "たぬき /狸/");
  (U "たね /種/");
  (U "たば /束/");
  (U "たび /度/旅/");
  (U "たぶん /多分/");
  (U "たま /霊/玉/球/弾/");
  (U "たまご /卵/");
  (U "たましい /魂/");
  (U "たみ /民/");
  (U "ため /為/");
  (U "たら /鱈/");
  (U "たる /樽/");
  (U "たわら /俵/");
  (U "たん /単/端/反/鍛/誕/胆/耽/短/炭/湛/淡/歎/旦/探/担/坦/嘆/丹/箪/");
  (U "たんい /単位/");
  (U "たんこうぼん /単行本/");
  (U "たんご /単語/");
  (U "たんじゅん /単純/");
  (U "たんじょう /誕生/");
  (U "たんじょうび /誕生日/");
  (U "たんす /箪笥/");
  (U "たんちょう /単調/");
  (U "たんとう /担当/");
  (U "たんぱく /蛋白/");
  (U "たんまつ /端末/");
  (U "だ /駄/陀/楕/舵/柁/打/惰/妥/堕/唾/蛇/");
  (U "だい /大/第/内/代/台/題/弟/");
  (U "だいいち /第一/");
  (U "だいがく /大学/");
  (U "だいがくいん /大学院/");
  (U "だいきぼ /大規模/");
  (U "だいこん /大根/");
  (U "だいご /醍醐/");
  (U "だいじ /大事/");
  (U "だいじょうぶ /大丈夫/");
  (U "だいたい /大体/");
  (U "だいたん /大胆/");
  (U "だいひゃっか /大百科/");
  (U "だいひょう /代表/");
  (U "だいひょうてき /代表的/");
  (U "だいぶぶん /大部分/");
  (U "だいめい /題名/")].
Definition dic_SKK_JISYO_S_24 : list str := Eval vm_compute in [
  (U "だく /諾/濁/");
  (U "だくおん /濁音/");
  (U "だそく /蛇足/");
  (U "だつ /奪/脱/");
  (U "だとう /妥当/");
  (U "だめ /駄目/");
  (U "だれ /誰/");
  (U "だん /男/段/断/弾/暖/談/檀/壇/団/");
  (U "だんかい /段階/");
  (U "だんたい /団体/");
  (U "ち /値/恥/地/知/茅/馳/遅/致/置/稚/痴/池/智/治/血/質/千/乳/弛/");
  (U "ちいき /地域/");
  (U "ちか /地下/");
  (U "ちかてつ /地下鉄/");
  (U "ちから /力/");
  (U "ちきゅう /地球/");
  (U "ちく /地区/逐/蓄/筑/竹/畜/築/");
  (U "ちくせき /蓄積/");
  (U "ちしき /知識/");
  (U "ちず /地図/");
  (U "ちち /父/乳/");
  (U "ちつ /窒/秩/");
  (U "ちてき /知的/");
  (U "ちてん /地点/");
  (U "ちのう /知能/");
  (U "ちほう /地方/");
  (U "ちまた /巷/");
  (U "ちゃ /茶/");
  (U "ちゃく /着/嫡/");
  (U "ちゅう /中/注/昼/虫/宙/駐/鋳/酎/註/衷/柱/抽/忠/仲/");
  (U "ちゅうい /注意/");
  (U "ちゅうがく /中学/");
  (U "ちゅうけい /中継/");
  (U "ちゅうごく /中国/");
  (U "ちゅうし /中止/");
  (U "ちゅうしゃじょう /駐車場/");
  (U "ちゅうしゅつ /抽出/");
  (U "ちゅうしょう /抽象/");
  (U "ちゅうしん /中心/");
  (U "ちゅうと /中途/");
  (U "ちゅうもく /注目/");
  (U "ちゅうもん /注文/");
  (U "ちゅうりゃく /中略/");
  (U "ちょ /貯/著/苧/瀦/樗/緒/猪/");
  (U "ちょう /長/超/肇/弔/重/帳/調/張/鳥/頂/跳/諜/蝶/腸/脹/聴/眺/町/牒/潮/朝/暢/挑/懲/徴/彫/庁/帖/寵/喋/凋/兆/丁/澄/");
  (U "ちょうさ /調査/");
  (U "ちょうし /調子/銚子/");
  (U "ちょうせい /調整/");
  (U "ちょうはつ /長髪/");
  (U "ちょうふく /重複/");
  (U "ちょく /直/捗/勅/");
  (U "ちょくげき /直撃/");
  (U "ちょくご /直後/");
  (U "ちょくせつ /直接/");
  (U "ちょくせつてき /直接的/");
  (U "ちょくぜん /直前/");
  (U "ちょさく /著作/");
  (U "ちょさくけん /著作権/");
  (U "ちょさくしゃ /著作者/");
  (U "ちょさくぶつ /著作物/");
  (U "ちょしゃ /著者/");
  (U "ちょっこう /直交/");
  (U "ちん /椿/陳/鎮/賃/珍/沈/朕/");
  (U "つ /津/都/");
  (U "つい /対/鎚/追/槌/椎/墜/");
  (U "ついか /追加/");
  (U "つう /通/痛/");
  (U "つうか /通過/");
  (U "つうかい /痛快/");
  (U "つうがく /通学/");
  (U "つうしん /通信/");
  (U "つうじょう /通常/");
  (U "つうち /通知/");
  (U "つか /塚/");
  (U "つが /栂/");
  (U "つき /月/付/槻/");
  (U "つぎ /次/");
  (U "つくえ /机/");
  (U "つくだ /佃/");
  (U "つくば /筑波/");
  (U "つげ /柘/");
  (U "つごう /都合/");
  (U "つじ /辻/");
  (U "つた /蔦/");
  (U "つち /土/");
  (U "つつ /砲/筒/");
  (U "つつみ /堤/");
  (U "つづみ /鼓/");
  (U "つどい /集/");
  (U "つな /綱/");
  (U "つね /常/");
  (U "つの /角/");
  (U "つば /鍔/");
  (U "つばき /椿/");
  (U "つばさ /翼/");
  (U "つばめ /燕/");
  (U "つぶ /粒/");
  (U "つぼ /壷/坪/");
  (U "つま /妻/嬬/");
  (U "つみ /罪/")].
Definition dic_SKK_JISYO_S_25 : list str := Eval vm_compute in [
  (U "つむ /錘/");
  (U "つむぎ /紬/");
  (U "つめ /爪/");
  (U "つゆ /露/");
  (U "つら /面/");
  (U "つり /釣/吊/");
  (U "つる /鶴/弦/蔓/");
  (U "つるぎ /剣/");
  (U "て /手/");
  (U "てい /定/程/鼎/釘/鄭/邸/逓/蹄/諦/訂/艇/締/禎/碇/汀/梯/提/挺/抵/悌/弟/廷/庭/底/帝/堤/呈/貞/剃/偵/停/低/亭/体/丁/");
  (U "ていあん /提案/");
  (U "ていか /定価/");
  (U "ていき /提起/");
  (U "ていきょう /提供/");
  (U "ていぎ /定義/");
  (U "ていじ /提示/");
  (U "ていせい /訂正/");
  (U "ていでん /停電/");
  (U "ていど /程度/");
  (U "ていねい /丁寧/");
  (U "てかず /手数/");
  (U "てがみ /手紙/");
  (U "てき /的/敵/鏑/適/笛/滴/擢/摘/");
  (U "てきせつ /適切/");
  (U "てきとう /適当/");
  (U "てきど /適度/");
  (U "てきよう /適用/");
  (U "てくび /手首/");
  (U "てじゅん /手順/");
  (U "てつ /鉄/迭/轍/撤/徹/哲/");
  (U "てつがく /哲学/");
  (U "てつがくしゃ /哲学者/");
  (U "てつどう /鉄道/");
  (U "てつや /徹夜/");
  (U "てびき /手引/");
  (U "てふだ /手札/");
  (U "てま /手間/");
  (U "てまえ /手前/");
  (U "てもと /手元/");
  (U "てら /寺/");
  (U "てん /点/店/天/転/顛/甜/纏/添/展/填/典/貼/殿/");
  (U "てんかい /展開/");
  (U "てんき /天気/");
  (U "てんくう /天空/");
  (U "てんこう /転校/");
  (U "てんさい /転載/");
  (U "てんそう /転送/");
  (U "で /弟/");
  (U "でい /泥/");
  (U "でき /出来/溺/");
  (U "でぐち /出口/");
  (U "でん /電/田/澱/殿/伝/");
  (U "でんか /電化/");
  (U "でんき /電気/");
  (U "でんげん /電源/");
  (U "でんし /電子/");
  (U "でんしゃ /電車/");
  (U "でんたつ /伝達/");
  (U "でんわ /電話/");
  (U "でんわだい /電話代/");
  (U "と /都/登/途/図/戸/頭/十/土/徒/渡/塗/斗/吐/賭/度/杜/砥/屠/砺/妬/堵/鍍/兎/菟/");
  (U "とい /問/");
  (U "とう /等/頭/当/討/董/東/投/冬/盗/闘/騰/陶/鐙/透/逃/踏/豆/謄/藤/蕩/到/統/糖/筒/答/祷/痘/燈/灯/涛/湯/淘/棟/梼/桃/搭/悼/嶋/島/宕/套/塘/塔/唐/刀/凍/党/倒/登/読/道/納/逗/");
  (U "とういつ /統一/");
  (U "とうかいどう /東海道/");
  (U "とうきょう /東京/");
  (U "とうきょうと /東京都/");
  (U "とうけい /統計/");
  (U "とうげ /峠/");
  (U "とうこう /投稿/");
  (U "とうこうしゃ /投稿者/");
  (U "とうしょう /闘将/");
  (U "とうじ /当時/");
  (U "とうじつ /当日/");
  (U "とうじょう /登場/");
  (U "とうぜん /当然/");
  (U "とうちゃく /到着/");
  (U "とうひょう /投票/");
  (U "とうほう /当方/");
  (U "とうほく /東北/");
  (U "とうめん /当面/");
  (U "とうろく /登録/");
  (U "とお /十/");
  (U "とおり /通/");
  (U "とかい /都会/");
  (U "とき /時/鴇/");
  (U "とく /特/得/篤/禿/督/涜/徳/匿/読/");
  (U "とくさつ /特撮/");
  (U "とくしゅ /特殊/");
  (U "とくしゅう /特集/");
  (U "とくしゅうごう /特集号/");
  (U "とくせい /特性/");
  (U "とくちょう /特徴/");
  (U "とくてい /特定/");
  (U "とくてん /得点/");
  (U "とくばん /特番/");
  (U "とくべつ /特別/");
  (U "とけい /時計/");
  (U "とこ /常/床/");
  (U "ところ /所/")].
Definition dic_SKK_JISYO_S_26 : list str := Eval vm_compute in [
  (U "とし /年/歳/");
  (U "としょかん /図書館/");
  (U "とち /土地/橡/栃/");
  (U "とちゅう /途中/");
  (U "とつ /突/凸/");
  (U "とつぜん /突然/");
  (U "とど /椴/");
  (U "とない /都内/");
  (U "となり /隣/");
  (U "との /殿/");
  (U "とび /鳶/");
  (U "とびら /扉/");
  (U "とま /苫/");
  (U "とみ /富/");
  (U "とも /共/供/友/");
  (U "ともだち /友達/");
  (U "とら /寅/");
  (U "とり /酉/鳥/");
  (U "とろ /瀞/");
  (U "とん /豚/頓/遁/沌/敦/惇/屯/噸/団/問/");
  (U "ど /度/奴/土/怒/努/");
  (U "どう /道/動/瞳/導/同/銅/胴/童/洞/撞/憧/堂/働/");
  (U "どういつ /同一/");
  (U "どうかん /同感/");
  (U "どうき /同期/");
  (U "どうぐ /道具/");
  (U "どうさ /動作/");
  (U "どうし /動詞/同士/");
  (U "どうじ /同時/");
  (U "どうじょう /同上/同乗/");
  (U "どうせい /同姓/");
  (U "どうちょう /同調/");
  (U "どうてき /動的/");
  (U "どうにゅう /導入/");
  (U "どうぶつ /動物/");
  (U "どうめい /同名/");
  (U "どうよう /同様/");
  (U "どうろ /道路/");
  (U "どく /毒/読/独/");
  (U "どくしゃ /読者/");
  (U "どくじ /独自/");
  (U "どくりつ /独立/");
  (U "どこ /何処/");
  (U "どにち /土日/");
  (U "どの /殿/");
  (U "どよう /土曜/");
  (U "どりょく /努力/");
  (U "どろ /泥/");
  (U "どん /鈍/曇/呑/");
  (U "な /名/那/奈/菜/納/南/");
  (U "ない /内/");
  (U "ないせん /内線/");
  (U "ないぶ /内部/");
  (U "ないよう /内容/");
  (U "ないりん /内輪/");
  (U "なえ /苗/");
  (U "なか /中/仲/");
  (U "なかま /仲間/");
  (U "なかみ /中身/");
  (U "ながら /乍/");
  (U "なぎ /凪/薙/");
  (U "なぎさ /渚/");
  (U "なぐ /薙/");
  (U "なごや /名古屋/");
  (U "なし /梨/");
  (U "なぜ /何故/");
  (U "なぞ /謎/");
  (U "なだ /灘/");
  (U "なっ /納/");
  (U "なっとく /納得/");
  (U "なつ /夏/捺/");
  (U "なな /七/");
  (U "なに /何/");
  (U "なの /七/");
  (U "なべ /鍋/");
  (U "なま /生/");
  (U "なまえ /名前/");
  (U "なまり /鉛/");
  (U "なみ /波/並/");
  (U "なみだ /涙/");
  (U "なら /奈良/楢/");
  (U "なわ /縄/苗/");
  (U "なわて /畷/");
  (U "なん /何/難/南/軟/楠/男/納/");
  (U "なんかい /何回/");
  (U "なんきょく /南極/");
  (U "なんじ /汝/");
  (U "なんど /何度/");
  (U "なんにん /何人/");
  (U "なんねん /何年/");
  (U "に /二/荷/仁/児/尼/迩/弐/");
  (U "にい /新/");
  (U "にがて /苦手/");
  (U "にく /肉/");
  (U "にし /西/");
  (U "にじ /虹/");
  (U "にじゅう /廿/");
  (U "にせ /偽/");
  (U "にち /日/");
  (U "にちじ /日時/")].
Definition dic_SKK_JISYO_S_27 : list str := Eval vm_compute in [
  (U "にちや /日夜/");
  (U "にちよう /日曜/");
  (U "にっぽん /日本/");
  (U "にほん /日本/");
  (U "にほんがわ /日本側/");
  (U "にほんご /日本語/");
  (U "にほんごか /日本語化/");
  (U "にほんごにゅうりょく /日本語入力/");
  (U "にほんじん /日本人/");
  (U "にもの /煮物/");
  (U "にゃく /若/");
  (U "にゅう /入/乳/");
  (U "にゅういん /入院/");
  (U "にゅうしゅ /入手/");
  (U "にゅうりょく /入力/");
  (U "にょ /女/如/");
  (U "にょう /尿/女/");
  (U "にら /韮/");
  (U "にわ /庭/");
  (U "にわとり /鶏/");
  (U "にん /人/任/妊/忍/認/");
  (U "にんい /任意/");
  (U "にんき /人気/");
  (U "にんげん /人間/");
  (U "にんしき /認識/");
  (U "にんじゃ /忍者/");
  (U "にんずう /人数/");
  (U "ぬ /奴/");
  (U "ぬか /糠/");
  (U "ぬし /主/");
  (U "ぬの /布/");
  (U "ぬま /沼/");
  (U "ね /音/値/寝/根/祢/禰/");
  (U "ねい /寧/祢/禰/");
  (U "ねぎ /葱/");
  (U "ねこ /猫/");
  (U "ねだん /値段/");
  (U "ねつ /熱/");
  (U "ねん /年/念/粘/燃/撚/捻/然/");
  (U "ねんかん /年間/");
  (U "ねんだい /年代/");
  (U "ねんばん /年版/");
  (U "ねんぴ /燃費/");
  (U "ねんまえ /年前/");
  (U "ねんれい /年齢/");
  (U "の /埜/之/廼/乃/野/");
  (U "のう /農/膿/脳/能/納/濃/悩/嚢/");
  (U "のうぎょう /農業/");
  (U "のうど /濃度/");
  (U "のうにゅう /納入/");
  (U "のうりょく /能力/");
  (U "のき /軒/");
  (U "のち /後/");
  (U "のぶ /信/");
  (U "のみ /蚤/");
  (U "のり /法/糊/");
  (U "は /破/葉/歯/波/端/派/覇/播/把/巴/羽/刃/");
  (U "はあく /把握/");
  (U "はい /背/配/輩/肺/牌/盃/杯/敗/排/拝/廃/俳/灰/");
  (U "はいいろ /灰色/");
  (U "はいけい /背景/");
  (U "はいけん /拝見/");
  (U "はいし /廃止/");
  (U "はいそう /配送/");
  (U "はいふ /配布/");
  (U "はいり /背理/");
  (U "はいりほう /背理法/");
  (U "はいれつ /配列/");
  (U "はえ /蝿/");
  (U "はか /墓/");
  (U "はかい /破壊/");
  (U "はかま /袴/");
  (U "はかり /秤/");
  (U "はがね /鋼/");
  (U "はぎ /萩/矧/");
  (U "はく /泊/白/薄/迫/舶/粕/箔/柏/拍/博/剥/伯/");
  (U "はくい /白衣/");
  (U "はこ /箱/函/");
  (U "はざま /硲/");
  (U "はし /箸/橋/端/");
  (U "はしら /柱/");
  (U "はじ /恥/");
  (U "はじめ /肇/");
  (U "はす /蓮/");
  (U "はず /筈/");
  (U "はずれ /外/");
  (U "はぜ /櫨/");
  (U "はた /幡/旗/機/端/畑/");
  (U "はたけ /畠/畑/");
  (U "はたん /破綻/");
  (U "はだ /肌/");
  (U "はだか /裸/");
  (U "はち /鉢/八/蜂/");
  (U "はっ /法/");
  (U "はっけん /発見/");
  (U "はっこう /発行/");
  (U "はっしん /発信/");
  (U "はっせい /発生/");
  (U "はっそう /発送/発想/");
  (U "はってん /発展/")].
Definition dic_SKK_JISYO_S_28 : list str := Eval vm_compute in [
  (U "はっぴょう /発表/");
  (U "はつ /髪/初/発/醗/溌/");
  (U "はつおん /発音/");
  (U "はつげん /発言/");
  (U "はつばい /発売/");
  (U "はで /派手/");
  (U "はと /鳩/");
  (U "はな /花/鼻/華/");
  (U "はなし /話/噺/");
  (U "はなわ /塙/");
  (U "はね /羽/");
  (U "はは /母/");
  (U "ははおや /母親/");
  (U "はば /幅/");
  (U "はま /浜/");
  (U "はまぐり /蛤/");
  (U "はやし /林/");
  (U "はやぶさ /隼/");
  (U "はら /腹/原/");
  (U "はり /針/");
  (U "はる /春/");
  (U "はるか /遥/");
  (U "はん /版/半/坂/判/反/飯/頒/煩/釆/範/販/藩/般/繁/畔/班/犯/汎/氾/板/斑/搬/帆/叛/伴/凡/");
  (U "はんい /範囲/");
  (U "はんえい /反映/");
  (U "はんかく /半角/");
  (U "はんかくかたかな /半角片仮名/");
  (U "はんかくかな /半角仮名/");
  (U "はんきょう /反響/");
  (U "はんたい /反対/");
  (U "はんだん /判断/");
  (U "はんてい /判定/");
  (U "はんのう /反応/");
  (U "はんばい /販売/");
  (U "はんぱ /半端/");
  (U "はんぶん /半分/");
  (U "はんろん /反論/");
  (U "ば /場/馬/罵/婆/");
  (U "ばあい /場合/");
  (U "ばい /倍/陪/賠/売/買/狽/煤/楳/梅/媒/培/");
  (U "ばいすう /倍数/");
  (U "ばか /馬鹿/");
  (U "ばく /麦/駁/莫/縛/爆/漠/曝/博/暴/幕/");
  (U "ばしょ /場所/");
  (U "ばしょう /芭蕉/");
  (U "ばち /罰/");
  (U "ばっすい /抜粋/");
  (U "ばつ /罰/閥/抜/伐/末/筏/");
  (U "ばめん /場面/");
  (U "ばん /番/判/板/万/晩/盤/磐/伴/蛮/挽/蕃/");
  (U "ばんぐみ /番組/");
  (U "ばんごう /番号/");
  (U "ひ /日/彼/比/扉/火/陽/費/樋/飛/非/避/誹/被/肥/罷/緋/秘/碑/皮/疲/泌/斐/披/批/悲/庇/妃/否/卑/匪/灯/氷/");
  (U "ひいらぎ /柊/");
  (U "ひえ /稗/");
  (U "ひかく /比較/");
  (U "ひかり /光/");
  (U "ひかわ /簸川/");
  (U "ひがい /被害/");
  (U "ひがし /東/");
  (U "ひき /匹/疋/");
  (U "ひきすう /引数/");
  (U "ひげ /髭/");
  (U "ひこ /彦/");
  (U "ひざ /膝/");
  (U "ひし /菱/");
  (U "ひじ /肘/");
  (U "ひじょう /非常/");
  (U "ひたい /額/");
  (U "ひたち /日立/");
  (U "ひだ /飛騨/");
  (U "ひだり /左/");
  (U "ひだりがわ /左側/");
  (U "ひっす /必須/");
  (U "ひつ /必/逼/筆/畢/弼/泌/");
  (U "ひつぎ /棺/");
  (U "ひつじ /羊/未/");
  (U "ひつよう /必要/");
  (U "ひつようせい /必要性/");
  (U "ひづけ /日付/");
  (U "ひてい /否定/");
  (U "ひで /英/");
  (U "ひと /一/人/");
  (U "ひとけ /人気/");
  (U "ひとこと /一言/");
  (U "ひとたび /一度/");
  (U "ひとみ /瞳/");
  (U "ひとり /一人/");
  (U "ひなん /非難/");
  (U "ひのき /桧/");
  (U "ひはん /批判/");
  (U "ひふ /皮膚/");
  (U "ひま /暇/");
  (U "ひみつ /秘密/");
  (U "ひめ /媛/姫/");
  (U "ひも /紐/");
  (U "ひゃく /百/");
  (U "ひょう /表/豹/評/票/漂/氷/標/彪/俵/拍/兵/瓢/");
  (U "ひょうか /評価/");
  (U "ひょうき /表記/")].
Definition dic_SKK_JISYO_S_29 : list str := Eval vm_compute in [
  (U "ひょうげん /表現/");
  (U "ひょうし /表紙/");
  (U "ひょうしょう /表象/");
  (U "ひょうじ /表示/");
  (U "ひょうじゅん /標準/");
  (U "ひょうじゅんてき /標準的/");
  (U "ひょうたん /瓢箪/");
  (U "ひょうばん /評判/");
  (U "ひよう /費用/");
  (U "ひら /平/");
  (U "ひる /昼/蛭/蒜/");
  (U "ひるま /昼間/");
  (U "ひれ /鰭/");
  (U "ひろ /裕/");
  (U "ひん /頻/賓/貧/瀕/浜/斌/彬/品/");
  (U "ひんぱん /頻繁/");
  (U "び /鼻/美/眉/毘/微/尾/備/");
  (U "びおん /鼻音/");
  (U "びじん /美人/");
  (U "びみ /美味/");
  (U "びみょう /微妙/");
  (U "びゃく /白/");
  (U "びゅう /謬/");
  (U "びょう /秒/平/鋲/苗/病/描/廟/猫/錨/");
  (U "びょういん /病院/");
  (U "びょうき /病気/");
  (U "びわ /枇杷/琵琶/");
  (U "びん /瓶/敏/貧/便/");
  (U "びんじょう /便乗/");
  (U "ふ /父/負/附/赴/賦/譜/腐/符/浮/普/敷/扶/怖/府/布/冨/富/婦/夫/埠/付/不/風/歩/膚/斧/阜/");
  (U "ふあん /不安/");
  (U "ふう /風/封/夫/富/楓/");
  (U "ふうちょう /風潮/");
  (U "ふうみ /風味/");
  (U "ふえ /笛/");
  (U "ふか /付加/");
  (U "ふかのう /不可能/");
  (U "ふき /蕗/葺/");
  (U "ふきゅう /普及/");
  (U "ふく /覆/幅/腹/福/服/複/復/副/伏/");
  (U "ふくざつ /複雑/");
  (U "ふくしゃ /複写/");
  (U "ふくしゅう /復讐/");
  (U "ふくすう /複数/");
  (U "ふくせい /複製/");
  (U "ふくろ /袋/");
  (U "ふこう /不幸/");
  (U "ふごうか /符号化/");
  (U "ふさ /房/");
  (U "ふし /節/");
  (U "ふしぎ /不思議/");
  (U "ふしぜん /不自然/");
  (U "ふすま /襖/");
  (U "ふそく /不足/");
  (U "ふた /二/双/");
  (U "ふたご /双子/");
  (U "ふたり /二人/");
  (U "ふたん /負担/");
  (U "ふだ /札/");
  (U "ふだん /普段/");
  (U "ふち /淵/縁/");
  (U "ふちょう /不調/");
  (U "ふっかつ /復活/");
  (U "ふつ /沸/払/弗/");
  (U "ふつう /普通/");
  (U "ふつごう /不都合/");
  (U "ふで /筆/");
  (U "ふところ /懐/");
  (U "ふな /鮒/船/舟/");
  (U "ふね /船/舟/");
  (U "ふべん /不便/");
  (U "ふみ /文/");
  (U "ふめい /不明/");
  (U "ふゆ /冬/");
  (U "ふよう /芙蓉/");
  (U "ふん /分/糞/雰/紛/粉/奮/焚/扮/憤/墳/噴/吻/");
  (U "ふんしつ /紛失/");
  (U "ぶ /分/部/無/舞/武/撫/侮/不/歩/奉/蕪/");
  (U "ぶきみ /不気味/");
  (U "ぶじ /無事/");
  (U "ぶた /豚/");
  (U "ぶつ /物/仏/");
  (U "ぶつりてき /物理的/");
  (U "ぶどう /葡萄/");
  (U "ぶなん /無難/");
  (U "ぶひん /部品/");
  (U "ぶぶん /部分/");
  (U "ぶもん /部門/");
  (U "ぶん /分/文/聞/");
  (U "ぶんか /文化/");
  (U "ぶんかつ /分割/");
  (U "ぶんけん /文献/");
  (U "ぶんしょ /文書/");
  (U "ぶんしょう /文章/");
  (U "ぶんぽう /文法/");
  (U "ぶんや /分野/");
  (U "ぶんるい /分類/");
  (U "へい /閉/平/陛/蔽/並/柄/弊/幣/塀/兵/併/丙/病/");
  (U "へいがい /弊害/");
  (U "へいき /平気/")].
Definition dic_SKK_JISYO_S_30 : list str := Eval vm_compute in [
  (U "へいきん /平均/");
  (U "へいげん /平原/");
  (U "へいれつ /並列/");
  (U "へき /壁/碧/癖/僻/");
  (U "へた /下手/");
  (U "へび /蛇/");
  (U "へや /部屋/");
  (U "へら /箆/");
  (U "へん /変/辺/編/返/遍/篇/片/偏/");
  (U "へんか /変化/");
  (U "へんかん /変換/");
  (U "へんけん /偏見/");
  (U "へんげ /変化/");
  (U "へんこう /変更/");
  (U "へんしゅう /編集/");
  (U "へんじ /返事/");
  (U "へんすう /変数/");
  (U "へんすうめい /変数名/");
  (U "へんとう /返答/");
  (U "へんぴん /返品/");
  (U "べ /辺/");
  (U "べい /米/");
  (U "べいこく /米国/");
  (U "べっと /別途/");
  (U "べつ /別/蔑/瞥/");
  (U "べつめい /別名/");
  (U "べに /紅/");
  (U "べん /勉/鞭/弁/娩/便/");
  (U "べんきょう /勉強/");
  (U "べんぎ /便宜/");
  (U "べんごし /弁護士/");
  (U "べんとう /弁当/");
  (U "べんり /便利/");
  (U "ぺーじ /頁/");
  (U "ほ /保/穂/輔/補/甫/歩/捕/圃/鋪/舗/火/帆/");
  (U "ほう /方/法/泡/砲/放/報/鵬/鳳/飽/鋒/邦/豊/訪/蓬/萌/芳/胞/烹/朋/捧/抱/庖/崩/峯/峰/宝/奉/呆/包/俸/倣/縫/封/褒/蜂/");
  (U "ほうえい /放映/");
  (U "ほうき /放棄/");
  (U "ほうげん /方言/");
  (U "ほうこう /方向/");
  (U "ほうこく /報告/");
  (U "ほうしき /方式/");
  (U "ほうしゅう /報酬/");
  (U "ほうしん /方針/");
  (U "ほうそう /放送/");
  (U "ほうそく /法則/");
  (U "ほうどう /報道/");
  (U "ほうび /褒美/");
  (U "ほうほう /方法/");
  (U "ほうめん /方面/");
  (U "ほうりつ /法律/");
  (U "ほお /頬/");
  (U "ほか /他/外/");
  (U "ほく /北/");
  (U "ほくりく /北陸/");
  (U "ほけん /保険/");
  (U "ほこ /矛/鉾/");
  (U "ほご /保護/");
  (U "ほし /星/");
  (U "ほしょう /保証/");
  (U "ほそく /補足/");
  (U "ほぞん /保存/");
  (U "ほたる /蛍/");
  (U "ほっ /法/");
  (U "ほっかいどう /北海道/");
  (U "ほつ /発/");
  (U "ほとけ /仏/");
  (U "ほとんど /殆ど/");
  (U "ほど /程/");
  (U "ほね /骨/");
  (U "ほのお /炎/");
  (U "ほら /洞/");
  (U "ほり /堀/");
  (U "ほろ /幌/");
  (U "ほん /本/翻/奔/反/");
  (U "ほんき /本気/");
  (U "ほんぎょう /本業/");
  (U "ほんしつてき /本質的/");
  (U "ほんじつ /本日/");
  (U "ほんせん /本線/");
  (U "ほんたい /本体/");
  (U "ほんだい /本題/");
  (U "ほんとう /本当/");
  (U "ほんにん /本人/");
  (U "ほんぶ /本部/");
  (U "ほんぶん /本文/");
  (U "ほんや /本屋/");
  (U "ほんやく /翻訳/");
  (U "ほんらい /本来/");
  (U "ぼ /母/暮/簿/戊/慕/墓/募/模/");
  (U "ぼいん /母音/");
  (U "ぼう /某/妨/防/貿/貌/謀/膨/紡/冒/棒/望/暴/房/忙/忘/坊/剖/傍/亡/乏/妄/肪/帽/");
  (U "ぼうし /帽子/");
  (U "ぼうそう /暴走/");
  (U "ぼうとう /冒頭/");
  (U "ぼく /僕/木/穆/睦/牧/朴/撲/墨/卜/目/");
  (U "ぼさつ /菩薩/");
  (U "ぼしゅう /募集/");
  (U "ぼたん /釦/");
  (U "ぼだい /菩提/")].
Definition dic_SKK_JISYO_S_31 : list str := Eval vm_compute in [
  (U "ぼっ /坊/");
  (U "ぼつ /没/勃/");
  (U "ぼん /盆/凡/");
  (U "ま /間/目/真/麻/魔/磨/摩/馬/");
  (U "まい /枚/毎/昧/妹/埋/舞/米/");
  (U "まいすう /枚数/");
  (U "まいにち /毎日/");
  (U "まいる /哩/");
  (U "まえ /前/");
  (U "まえしょり /前処理/");
  (U "まき /巻/槙/牧/");
  (U "まきた /真北/");
  (U "まく /膜/幕/");
  (U "まくら /枕/");
  (U "まぐろ /鮪/");
  (U "まこと /誠/");
  (U "まご /孫/");
  (U "まさ /正/柾/");
  (U "まじめ /真面目/");
  (U "ます /桝/鱒/升/舛/");
  (U "また /又/俣/亦/");
  (U "まち /街/町/");
  (U "まつ /松/末/沫/抹/");
  (U "まつりごと /政/");
  (U "まで /迄/");
  (U "まと /的/");
  (U "まど /窓/");
  (U "まどぐち /窓口/");
  (U "まなこ /眼/");
  (U "まね /真似/");
  (U "まひがし /真東/");
  (U "まほう /魔法/");
  (U "まぼろし /幻/");
  (U "まま /侭/");
  (U "まみなみ /真南/");
  (U "まめ /豆/");
  (U "まゆ /繭/");
  (U "まゆずみ /黛/");
  (U "まよなか /真夜中/");
  (U "まる /丸/");
  (U "まろ /麿/");
  (U "まん /万/満/漫/慢/蔓/");
  (U "まんえん /万円/");
  (U "まんが /漫画/");
  (U "まんぞく /満足/");
  (U "み /実/味/三/身/未/箕/巳/魅/");
  (U "みき /幹/");
  (U "みぎ /右/");
  (U "みぎがわ /右側/");
  (U "みことのり /詔/");
  (U "みさお /操/");
  (U "みさき /岬/");
  (U "みささぎ /陵/");
  (U "みず /水/");
  (U "みずうみ /湖/");
  (U "みせ /店/");
  (U "みそ /味噌/");
  (U "みそか /晦/");
  (U "みぞ /溝/");
  (U "みち /道/");
  (U "みつ /蜜/密/");
  (U "みてい /未定/");
  (U "みどく /未読/");
  (U "みどり /緑/");
  (U "みな /皆/");
  (U "みなさま /皆様/");
  (U "みなと /湊/港/");
  (U "みなみ /南/");
  (U "みなもと /源/");
  (U "みね /峰/");
  (U "みの /蓑/");
  (U "みのる /稔/");
  (U "みみ /耳/");
  (U "みゃく /脈/");
  (U "みや /宮/");
  (U "みやこ /都/");
  (U "みょう /名/明/命/妙/");
  (U "みょうにち /明日/");
  (U "みらい /未来/");
  (U "みり /粍/");
  (U "みりめーとる /粍/");
  (U "みん /眠/民/");
  (U "む /夢/無/霧/矛/牟/務/武/六/謀/");
  (U "むい /六/");
  (U "むいみ /無意味/");
  (U "むかし /昔/");
  (U "むかんけい /無関係/");
  (U "むぎ /麦/");
  (U "むく /椋/");
  (U "むげん /無限/");
  (U "むこ /婿/");
  (U "むこう /無効/");
  (U "むし /無視/虫/");
  (U "むしょう /無償/");
  (U "むすこ /息子/");
  (U "むすめ /娘/");
  (U "むせいか /無声化/");
  (U "むせきにん /無責任/");
  (U "むせん /無線/");
  (U "むだ /無駄/")].
Definition dic_SKK_JISYO_S_32 : list str := Eval vm_compute in [
  (U "むな /胸/棟/");
  (U "むね /旨/胸/棟/");
  (U "むのう /無能/");
  (U "むら /群/村/");
  (U "むらさき /紫/");
  (U "むり /無理/");
  (U "むりょう /無料/");
  (U "むれ /群/");
  (U "むろ /室/");
  (U "め /目/女/芽/雌/");
  (U "めい /名/明/命/迷/姪/鳴/銘/盟/冥/");
  (U "めいかく /明確/");
  (U "めいき /明記/");
  (U "めいさく /名作/");
  (U "めいし /名詞/");
  (U "めいしょう /名称/");
  (U "めいじ /明示/");
  (U "めいれい /命令/");
  (U "めいわく /迷惑/");
  (U "めし /飯/");
  (U "めす /牝/雌/");
  (U "めつ /滅/");
  (U "めん /面/麺/緬/綿/棉/免/");
  (U "めんきょ /免許/");
  (U "めんどう /面倒/");
  (U "も /茂/模/摸/喪/");
  (U "もう /蒙/耗/網/盲/猛/毛/孟/妄/亡/望/");
  (U "もく /目/木/杢/黙/");
  (U "もくじ /目次/");
  (U "もくてき /目的/");
  (U "もくひょう /目標/");
  (U "もじ /文字/");
  (U "もじれつ /文字列/");
  (U "もち /餅/勿/");
  (U "もちろん /勿論/");
  (U "もっとも /尤も/");
  (U "もつ /物/");
  (U "もと /下/本/元/基/");
  (U "もとい /基/");
  (U "もなか /最中/");
  (U "もの /物/者/");
  (U "ものがたり /物語/");
  (U "もみ /籾/");
  (U "もも /桃/");
  (U "もり /森/");
  (U "もん /問/文/門/紋/悶/聞/");
  (U "もんく /文句/");
  (U "もんだい /問題/");
  (U "もんだいてん /問題点/");
  (U "もんめ /匁/");
  (U "や /屋/家/夜/矢/弥/野/耶/爺/冶/也/八/");
  (U "やきゅう /野球/");
  (U "やく /約/役/訳/薬/躍/厄/益/");
  (U "やくしゃ /訳者/");
  (U "やくそく /約束/");
  (U "やくちゅう /訳注/");
  (U "やくほん /訳本/");
  (U "やくわり /役割/");
  (U "やしろ /社/");
  (U "やじ /野次/");
  (U "やすい /靖/");
  (U "やっこ /奴/");
  (U "やつ /奴/");
  (U "やど /宿/");
  (U "やなぎ /柳/");
  (U "やぶ /薮/");
  (U "やま /山/");
  (U "やまい /病/");
  (U "やり /鑓/");
  (U "ゆ /諭/油/由/輸/癒/愈/愉/湯/遊/");
  (U "ゆい /由/唯/");
  (U "ゆいいつ /唯一/");
  (U "ゆう /有/優/由/夕/友/郵/誘/裕/融/遊/右/勇/雄/祐/憂/幽/悠/湧/猶/宥/佑/邑/猷/揖/涌/柚/");
  (U "ゆうい /有為/");
  (U "ゆうかい /誘拐/");
  (U "ゆうが /優雅/");
  (U "ゆうがた /夕方/");
  (U "ゆうこう /有効/");
  (U "ゆうしょう /優勝/");
  (U "ゆうじん /友人/");
  (U "ゆうせん /優先/");
  (U "ゆうめい /有名/");
  (U "ゆうめいじん /有名人/");
  (U "ゆうよう /有用/");
  (U "ゆうりょく /有力/");
  (U "ゆえ /故/");
  (U "ゆか /床/");
  (U "ゆき /雪/");
  (U "ゆたか /裕/");
  (U "ゆび /指/");
  (U "ゆみ /弓/");
  (U "ゆめ /夢/");
  (U "よ /代/世/余/夜/予/預/輿/誉/与/四/");
  (U "よい /宵/");
  (U "よう /用/様/要/陽/遥/葉/養/踊/謡/耀/羊/窯/熔/溶/洋/楊/曜/擁/揺/揚/庸/容/妖/幼/傭/腰/八/");
  (U "ようい /用意/容易/");
  (U "ようきゅう /要求/");
  (U "ようし /用紙/");
  (U "ようす /様子/");
  (U "ようそ /要素/")].
Definition dic_SKK_JISYO_S_33 : list str := Eval vm_compute in [
  (U "ようそう /様相/");
  (U "ようび /曜日/");
  (U "ようほう /用法/");
  (U "ようぼう /要望/");
  (U "ようやく /要約/");
  (U "ようりょう /容量/");
  (U "よく /翼/翌/浴/沃/欲/抑/慾/");
  (U "よこ /横/");
  (U "よこはま /横浜/");
  (U "よし /由/");
  (U "よそう /予想/");
  (U "よそく /予測/");
  (U "よだん /余談/");
  (U "よてい /予定/");
  (U "よど /淀/");
  (U "よなか /夜中/");
  (U "よね /米/");
  (U "よぶん /余分/");
  (U "よめ /嫁/");
  (U "よゆう /余裕/");
  (U "よる /夜/");
  (U "よろい /鎧/");
  (U "よん /四/");
  (U "ら /等/裸/螺/羅/");
  (U "らい /来/雷/頼/莱/礼/");
  (U "らいしゅう /来週/");
  (U "らいねんど /来年度/");
  (U "らく /楽/落/酪/絡/洛/");
  (U "らん /覧/欄/嵐/乱/蘭/藍/濫/卵/");
  (U "り /裏/里/離/理/利/痢/裡/璃/李/履/吏/梨/");
  (U "りえき /利益/");
  (U "りかい /理解/");
  (U "りき /力/");
  (U "りく /陸/");
  (U "りじゅん /利潤/");
  (U "りち /律/");
  (U "りっぱ /立派/");
  (U "りつ /率/立/葎/律/");
  (U "りてん /利点/");
  (U "りゃく /略/掠/");
  (U "りゅう /流/隆/立/龍/竜/粒/硫/留/溜/劉/柳/");
  (U "りゅうきゅう /琉球/");
  (U "りゅうこう /流行/");
  (U "りゅうつう /流通/");
  (U "りゆう /理由/");
  (U "りょ /虜/旅/慮/侶/");
  (U "りょう /量/寮/両/領/陵/遼/諒/良/糧/稜/瞭/療/猟/涼/梁/料/凌/僚/亮/了/漁/霊/");
  (U "りょういき /領域/");
  (U "りょうかい /了解/");
  (U "りょうきん /料金/");
  (U "りょうこう /良好/");
  (U "りょうしゃ /両者/");
  (U "りょうほう /両方/");
  (U "りょうめ /両目/");
  (U "りょうり /料理/");
  (U "りょく /力/緑/");
  (U "りよう /利用/");
  (U "りようしゃ /利用者/");
  (U "りろん /理論/");
  (U "りろんてき /理論的/");
  (U "りん /隣/輪/麟/鱗/臨/琳/燐/淋/林/厘/倫/鈴/");
  (U "りんご /林檎/");
  (U "りんせつ /隣接/");
  (U "る /流/瑠/");
  (U "るい /涙/類/累/塁/");
  (U "れい /例/齢/麗/霊/零/隷/鈴/苓/礼/玲/怜/嶺/励/冷/伶/令/戻/");
  (U "れいがい /例外/");
  (U "れき /歴/暦/");
  (U "れきし /歴史/");
  (U "れっしゃ /列車/");
  (U "れつ /列/裂/烈/劣/");
  (U "れん /恋/蓮/連/聯/練/簾/煉/漣/憐/廉/錬/");
  (U "れんきゅう /連休/");
  (U "れんさい /連載/");
  (U "れんしゅう /練習/");
  (U "れんぞく /連続/");
  (U "れんぞくち /連続値/");
  (U "れんらく /連絡/");
  (U "れんらくさき /連絡先/");
  (U "ろ /露/路/炉/櫓/魯/呂/");
  (U "ろう /朗/郎/蝋/聾/老/牢/漏/浪/榔/楼/弄/婁/労/糧/露/狼/廊/篭/");
  (U "ろうか /廊下/");
  (U "ろうひ /浪費/");
  (U "ろうりょく /労力/");
  (U "ろく /緑/録/肋/禄/六/");
  (U "ろくが /録画/");
  (U "ろん /論/");
  (U "ろんぎ /論議/");
  (U "ろんぶん /論文/");
  (U "ろんり /論理/");
  (U "わ /話/和/我/輪/倭/");
  (U "わい /歪/");
  (U "わいろ /賄賂/");
  (U "わき /脇/");
  (U "わく /枠/惑/");
  (U "わくせい /惑星/");
  (U "わけ /訳/");
  (U "わざ /技/業/");
  (U "わし /鷲/");
  (U "わしゃ /話者/")].
Definition dic_SKK_JISYO_S_34 : list str := Eval vm_compute in [
  (U "わた /綿/");
  (U "わたくし /私/");
  (U "わたし /私/");
  (U "わだい /話題/");
  (U "わに /鰐/");
  (U "わら /藁/");
  (U "わらび /蕨/");
  (U "わらべ /童/");
  (U "わり /割/");
  (U "わりばし /割箸/");
  (U "われ /我/");
  (U "わん /腕/碗/湾/椀/")].
Definition dic_SKK_JISYO_S : dents := Eval vm_compute in load_lines (dic_SKK_JISYO_S_0 ++ dic_SKK_JISYO_S_1 ++ dic_SKK_JISYO_S_2 ++ dic_SKK_JISYO_S_3 ++ dic_SKK_JISYO_S_4 ++ dic_SKK_JISYO_S_5 ++ dic_SKK_JISYO_S_6 ++ dic_SKK_JISYO_S_7 ++ dic_SKK_JISYO_S_8 ++ dic_SKK_JISYO_S_9 ++ dic_SKK_JISYO_S_10 ++ dic_SKK_JISYO_S_11 ++ dic_SKK_JISYO_S_12 ++ dic_SKK_JISYO_S_13 ++ dic_SKK_JISYO_S_14 ++ dic_SKK_JISYO_S_15 ++ dic_SKK_JISYO_S_16 ++ dic_SKK_JISYO_S_17 ++ dic_SKK_JISYO_S_18 ++ dic_SKK_JISYO_S_19 ++ dic_SKK_JISYO_S_20 ++ dic_SKK_JISYO_S_21 ++ dic_SKK_JISYO_S_22 ++ dic_SKK_JISYO_S_23 ++ dic_SKK_JISYO_S_24 ++ dic_SKK_JISYO_S_25 ++ dic_SKK_JISYO_S_26 ++ dic_SKK_JISYO_S_27 ++ dic_SKK_JISYO_S_28 ++ dic_SKK_JISYO_S_29 ++ dic_SKK_JISYO_S_30 ++ dic_SKK_JISYO_S_31 ++ dic_SKK_JISYO_S_32 ++ dic_SKK_JISYO_S_33 ++ dic_SKK_JISYO_S_34).
(** /repo/tests/data/dictionaries/userdict.dat *)
Definition dic_userdict_dat_0 : list str := Eval vm_compute in [
  (U "ぞうご /象語;象の話す言葉/像檎;たぶん伝承上の果物/造語;このエントリの他の項目/")].
Definition dic_userdict_dat : dents := Eval vm_compute in load_lines (dic_userdict_dat_0).
(** /repo/tests/data/dictionaries/number_jisyo.dat *)
Definition dic_number_jisyo_dat_0 : list str := Eval vm_compute in [
  (U "#かい /#0回/#1回/#2回/#3回/#4回/#5回/");
  (U "#ひき /#1匹/#3匹/#0匹/#2匹/");
  (U "#/# /#0月#0日/#1／#1/#1月#1日/");
  (U "#にち /#4日/");
  (U "1 /初/")].
Definition dic_number_jisyo_dat : dents := Eval vm_compute in load_lines (dic_number_jisyo_dat_0).
(** /repo/tests/data/dictionaries/register_test_dict.dat *)
Definition dic_register_test_dict_dat_0 : list str := Eval vm_compute in [
  (U "あ /候補/")].
Definition dic_register_test_dict_dat : dents := Eval vm_compute in load_lines (dic_register_test_dict_dat_0).
(** /repo/tests/data/dictionaries/2letter_okuri.dat *)
Definition dic_2letter_okuri_dat_0 : list str := Eval vm_compute in [
  (U "いt /言/行/入/居/射/云/炒;卵を炒る/煎;≒炒る/凍/要/逝;(die) 祖父が逝く/謂;(字義:何かに関していう)/鋳;金物を鋳る/将;兵を将る/率;≒将る/熬/鑄;「鋳」の旧字(人名用漢字)/往;(前進) 荒野を往く/")].
Definition dic_2letter_okuri_dat : dents := Eval vm_compute in load_lines (dic_2letter_okuri_dat_0).
(** /repo/tests/data/dictionaries/concat_dict.dat *)
Definition dic_concat_dict_dat_0 : list str := Eval vm_compute in [
  (U "どす /(concat ""DOS\057V"")/")].
Definition dic_concat_dict_dat : dents := Eval vm_compute in load_lines (dic_concat_dict_dat_0).
(** /repo/tests/data/dictionaries/maruichi.dat *)
Definition dic_maruichi_dat_0 : list str := Eval vm_compute in [
  (U "まる1 /①/❶/⓵/")].
Definition dic_maruichi_dat : dents := Eval vm_compute in load_lines (dic_maruichi_dat_0).
(** /repo/tests/data/dictionaries/abbreviation.dat *)
Definition dic_abbreviation_dat_0 : list str := Eval vm_compute in [
  (U "chalaza /カラザ;卵の中にある紐状のもの/");
  (U "face /顔/");
  (U "family /家族/")].
Definition dic_abbreviation_dat : dents := Eval vm_compute in load_lines (dic_abbreviation_dat_0).

Inductive tstep :=
| TReset | TAuto (l : list str)
| TCheck (c : cmode) (i : imode) (keys preedit output : str) (i' : imode).
Fixpoint tkeys (dbg : bool) (ks : list keyev) (w : world) : option world :=
  match ks with
  | [] => Some w
  | k :: r => match process_key_event ascii_xkb dbg k w with
              | Ok (_, w') => tkeys dbg r w'
              | Panic _ => None
              end
  end.
(** tests/utils/mod.rs:13-41 *)
Definition tstep_ok (dbg : bool) (s : tstep) (w : world) : option world :=
  match s with
  | TReset => match exec ascii_xkb dbg OReset w with Ok (_, w') => Some w' | Panic _ => None end
  | TAuto l => match exec ascii_xkb dbg (OSetAutoStart l) w with Ok (_, w') => Some w' | Panic _ => None end
  | TCheck c i keys pre out i' =>
      match run ascii_xkb dbg [OSetCompositionMode c; OSetInputMode i] w, deserialize_seq ascii_xkb keys with
      | Ok (_, w1), Ok (Some ks) =>
          match tkeys dbg ks w1 with
          | Some w2 =>
              match poll_output w2 with
              | Ok (o, w3) =>
                  match x_stack (w_ctx w3) with
                  | st :: _ =>
                      if str_eqb (odef o) out && str_eqb (get_preedit ascii_xkb (w_ctx w3)) pre
                         && imode_eqb (s_imode st) i'
                      then Some w3 else None
                  | [] => None
                  end
              | Panic _ => None
              end
          | None => None
          end
      | _, _ => None
      end
  end.
Fixpoint tsteps_ok (dbg : bool) (l : list tstep) (w : world) : bool :=
  match l with
  | [] => true
  | s :: r => match tstep_ok dbg s w with Some w' => tsteps_ok dbg r w' | None => false end
  end.
Definition tworld (r : rule) (ds : list dict) : world :=
  mkW ds (ctx_new ascii_xkb r default_kana_form default_ascii_map (seq 0 (length ds)) Hiragana Direct).

Example t_tests_basic_hiragana_input : tsteps_ok true [
  TCheck Direct Hiragana (U "a i u e o") (U "") (U "あいうえお") Hiragana] (tworld default_rule [mkDict true (DStatic dic_SKK_JISYO_S)]) = true.
Proof. vm_compute. reflexivity. Qed.
Example t_tests_simple_composition : tsteps_ok true [
  TCheck Direct Hiragana (U "A i") (U "▽あい") (U "") Hiragana] (tworld default_rule [mkDict true (DStatic dic_SKK_JISYO_S)]) = true.
Proof. vm_compute. reflexivity. Qed.
Example t_tests_precomposition_mode_from_middle : tsteps_ok true [
  TCheck Direct Hiragana (U "k I") (U "▽き") (U "") Hiragana] (tworld default_rule [mkDict true (DStatic dic_SKK_JISYO_S)]) = true.
Proof. vm_compute. reflexivity. Qed.
Example t_tests_okuri_mode_from_middle : tsteps_ok true [
  TCheck Direct Hiragana (U "k I n U") (U "▼き*ぬ【】") (U "") Hiragana] (tworld default_rule [mkDict true (DStatic dic_SKK_JISYO_S)]) = true.
Proof. vm_compute. reflexivity. Qed.
Example t_tests_okuri_nashi_henkan : tsteps_ok true [
  TCheck Direct Hiragana (U "A i space") (U "▼愛") (U "") Hiragana] (tworld default_rule [mkDict true (DStatic dic_SKK_JISYO_S)]) = true.
Proof. vm_compute. reflexivity. Qed.
Example t_tests_skip_on_impossible_kana : tsteps_ok true [
  TCheck Direct Hiragana (U "b n y a") (U "") (U "にゃ") Hiragana] (tworld default_rule [mkDict true (DStatic dic_SKK_JISYO_S)]) = true.
Proof. vm_compute. reflexivity. Qed.
Example t_tests_okuri_ari_henkan_precomposition : tsteps_ok true [
  TCheck Direct Hiragana (U "A K") (U "▽あ*k") (U "") Hiragana] (tworld default_rule [mkDict true (DStatic dic_SKK_JISYO_S)]) = true.
Proof. vm_compute. reflexivity. Qed.
Example t_tests_okuri_ari_henkan_to_composition_selection : tsteps_ok true [
  TCheck Direct Hiragana (U "A K i") (U "▼飽き") (U "") Hiragana] (tworld default_rule [mkDict true (DStatic dic_SKK_JISYO_S)]) = true.
Proof. vm_compute. reflexivity. Qed.
Example t_tests_okuri_nashi_henkan_kakutei : tsteps_ok true [
  TCheck Direct Hiragana (U "A i space Return") (U "") (U "愛") Hiragana] (tworld default_rule [mkDict true (DStatic dic_SKK_JISYO_S)]) = true.
Proof. vm_compute. reflexivity. Qed.
Example t_tests_okuri_nashi_henkan_continuous : tsteps_ok true [
  TCheck Direct Hiragana (U "A i space A i space C-j") (U "") (U "愛愛") Hiragana] (tworld default_rule [mkDict true (DStatic dic_SKK_JISYO_S)]) = true.
Proof. vm_compute. reflexivity. Qed.
Example t_tests_okuri_ari_henkan_kakutei : tsteps_ok true [
  TCheck Direct Hiragana (U "A K i space Return") (U "") (U "開き") Hiragana] (tworld default_rule [mkDict true (DStatic dic_SKK_JISYO_S)]) = true.
Proof. vm_compute. reflexivity. Qed.
Example t_tests_katakana_input : tsteps_ok true [
  TCheck Direct Hiragana (U "q x t u") (U "") (U "ッ") Katakana] (tworld default_rule [mkDict true (DStatic dic_SKK_JISYO_S)]) = true.
Proof. vm_compute. reflexivity. Qed.
Example t_tests_empty_dict_context : tsteps_ok true [
  TCheck Direct Hiragana (U "A i space") (U "▼あい【】") (U "") Hiragana] (tworld default_rule []) = true.
Proof. vm_compute. reflexivity. Qed.
Example t_tests_register_and_read : tsteps_ok true [
  TCheck Direct Hiragana (U "H o g e space A i space Return Return") (U "") (U "愛") Hiragana;
  TReset;
  TCheck Direct Hiragana (U "H o g e space") (U "▼愛") (U "") Hiragana] (tworld default_rule [mkDict false (DStatic dic_SKK_JISYO_S); mkDict false (DUser dents_empty false)]) = true.
Proof. vm_compute. reflexivity. Qed.
Example t_tests_non_ascii_transition : tsteps_ok true [
  TCheck Direct Ascii (U "plus") (U "") (U "+") Ascii;
  TReset;
  TCheck Direct Hiragana (U "plus") (U "") (U "+") Hiragana;
  TReset;
  TCheck Direct Hiragana (U "K plus") (U "▽+") (U "") Hiragana;
  TReset;
  TCheck Direct Hiragana (U "K a K plus") (U "▽か*+") (U "") Hiragana] (tworld default_rule [mkDict true (DStatic dic_SKK_JISYO_S)]) = true.
Proof. vm_compute. reflexivity. Qed.
Example t_tests_capital_q_transition : tsteps_ok true [
  TCheck Direct Hiragana (U "A a Q") (U "▽ああ") (U "") Hiragana] (tworld default_rule [mkDict true (DStatic dic_SKK_JISYO_S)]) = true.
Proof. vm_compute. reflexivity. Qed.
Example t_tests_g_without_ctrl : tsteps_ok true [
  TCheck Direct Hiragana (U "g") (U "g") (U "") Hiragana] (tworld default_rule [mkDict true (DStatic dic_SKK_JISYO_S)]) = true.
Proof. vm_compute. reflexivity. Qed.
Example t_tests_backspace_direct_kanabuild : tsteps_ok true [
  TCheck Direct Hiragana (U "h y BackSpace") (U "h") (U "") Hiragana] (tworld default_rule [mkDict true (DStatic dic_SKK_JISYO_S)]) = true.
Proof. vm_compute. reflexivity. Qed.
Example t_tests_backspace_precomposition : tsteps_ok true [
  TCheck Direct Hiragana (U "A i BackSpace") (U "▽あ") (U "") Hiragana] (tworld default_rule [mkDict true (DStatic dic_SKK_JISYO_S)]) = true.
Proof. vm_compute. reflexivity. Qed.
Example t_tests_previous_candidate : tsteps_ok true [
  TCheck Direct Hiragana (U "A i space") (U "▼愛") (U "") Hiragana;
  TReset;
  TCheck Direct Hiragana (U "A i space space x") (U "▼愛") (U "") Hiragana;
  TReset;
  TCheck Direct Hiragana (U "A i space space x x") (U "▽あい") (U "") Hiragana] (tworld default_rule [mkDict true (DStatic dic_SKK_JISYO_S)]) = true.
Proof. vm_compute. reflexivity. Qed.
Example t_tests_previous_candidate_with_okuri : tsteps_ok true [
  TCheck Direct Hiragana (U "H a Z u x") (U "▽はず") (U "") Hiragana] (tworld default_rule [mkDict true (DStatic dic_SKK_JISYO_S)]) = true.
Proof. vm_compute. reflexivity. Qed.
Example t_tests_kakutei_with_ctrl_j : tsteps_ok true [
  TCheck Direct Hiragana (U "A i C-j") (U "") (U "あい") Hiragana;
  TReset;
  TCheck Direct Hiragana (U "A i n C-j") (U "") (U "あいん") Hiragana] (tworld default_rule [mkDict true (DStatic dic_SKK_JISYO_S)]) = true.
Proof. vm_compute. reflexivity. Qed.
Example t_tests_reset_precomposition_on_ctrl_g : tsteps_ok true [
  TCheck Direct Hiragana (U "A i C-g A i") (U "▽あい") (U "") Hiragana] (tworld default_rule [mkDict true (DStatic dic_SKK_JISYO_S)]) = true.
Proof. vm_compute. reflexivity. Qed.
Example t_tests_flush_kana_on_abort_no_candidate_registration : tsteps_ok true [
  TCheck Direct Hiragana (U "K a p a space C-g space") (U "▼かぱ【】") (U "") Hiragana;
  TReset;
  TCheck Direct Hiragana (U "K a p a space K a space H a space C-j Return") (U "") (U "下破") Hiragana;
  TReset;
  TCheck Direct Hiragana (U "K a p a space C-g space X") (U "") (U "") Hiragana;
  TReset;
  TCheck Direct Hiragana (U "K a p a space C-g space") (U "▼かぱ【】") (U "") Hiragana] (tworld default_rule [mkDict false (DStatic dic_SKK_JISYO_S); mkDict false (DUser dents_empty false)]) = true.
Proof. vm_compute. reflexivity. Qed.
Example t_tests_escape_from_candidate_selection : tsteps_ok true [
  TCheck Direct Hiragana (U "A i space space Escape") (U "▽あい") (U "") Hiragana] (tworld default_rule [mkDict true (DStatic dic_SKK_JISYO_S)]) = true.
Proof. vm_compute. reflexivity. Qed.
Example t_tests_escape_from_okuri_ari_candidate_selection : tsteps_ok true [
  TCheck Direct Katakana (U "A I C-g space") (U "▼愛") (U "") Katakana] (tworld default_rule [mkDict true (DStatic dic_SKK_JISYO_S)]) = true.
Proof. vm_compute. reflexivity. Qed.
Example t_tests_confirm_composition_on_non_kana : tsteps_ok true [
  TCheck Direct Katakana (U "A i space 1") (U "") (U "愛1") Katakana] (tworld default_rule [mkDict true (DStatic dic_SKK_JISYO_S)]) = true.
Proof. vm_compute. reflexivity. Qed.
Example t_tests_auto_start_henkan : tsteps_ok true [
  TCheck Direct Hiragana (U "A i period") (U "▼愛。") (U "") Hiragana;
  TReset;
  TCheck Direct Hiragana (U "A i comma") (U "▼愛、") (U "") Hiragana;
  TReset;
  TCheck Direct Hiragana (U "A i bracketright") (U "▼愛」") (U "") Hiragana] (tworld default_rule [mkDict true (DStatic dic_SKK_JISYO_S)]) = true.
Proof. vm_compute. reflexivity. Qed.
Example t_tests_set_auto_start_henkan : tsteps_ok true [
  TCheck Direct Hiragana (U "A i w o") (U "▽あいを") (U "") Hiragana;
  TReset;
  TAuto [(U "を")];
  TCheck Direct Hiragana (U "A i w o") (U "▼愛を") (U "") Hiragana] (tworld default_rule [mkDict true (DStatic dic_SKK_JISYO_S)]) = true.
Proof. vm_compute. reflexivity. Qed.
Example t_tests_escape_from_okuri_ari_register : tsteps_ok true [
  TCheck Direct Hiragana (U "M a g u R o C-g space") (U "▼鮪") (U "") Hiragana] (tworld default_rule [mkDict true (DStatic dic_SKK_JISYO_S)]) = true.
Proof. vm_compute. reflexivity. Qed.
Example t_tests_wide_latin : tsteps_ok true [
  TCheck Direct Hiragana (U "L a b (shift exclam)") (U "") (U "ａｂ！") Zenkaku] (tworld default_rule [mkDict true (DStatic dic_SKK_JISYO_S)]) = true.
Proof. vm_compute. reflexivity. Qed.
Example t_tests_number_composition : tsteps_ok true [
  TCheck Direct Hiragana (U "Q 3 k a i space") (U "▼3回") (U "") Hiragana;
  TReset;
  TCheck Direct Hiragana (U "Q 3 k a i space space") (U "▼３回") (U "") Hiragana;
  TReset;
  TCheck Direct Hiragana (U "Q 3 4 k a i space space space") (U "▼三四回") (U "") Hiragana;
  TReset;
  TCheck Direct Hiragana (U "Q 3 4 k a i space space space space") (U "▼三十四回") (U "") Hiragana;
  TReset;
  TCheck Direct Hiragana (U "Q 1 k a i space space space space space") (U "▼初回") (U "") Hiragana;
  TReset;
  TCheck Direct Hiragana (U "Q 1 0 0 0 0 k a i space space space space space space") (U "▼壱万回") (U "") Hiragana] (tworld default_rule [mkDict false (DStatic dic_number_jisyo_dat)]) = true.
Proof. vm_compute. reflexivity. Qed.
Example t_tests_rom_kana_conversion_vu : tsteps_ok true [
  TCheck Direct Hiragana (U "V u") (U "▽ゔ") (U "") Hiragana;
  TReset;
  TCheck Direct Hiragana (U "V u q") (U "") (U "ヴ") Hiragana;
  TReset;
  TCheck Direct Katakana (U "V u") (U "▽ヴ") (U "") Katakana;
  TReset;
  TCheck Direct Katakana (U "V u") (U "▽ヴ") (U "") Katakana;
  TReset;
  TCheck Direct Katakana (U "V u q") (U "") (U "ゔ") Katakana] (tworld default_rule [mkDict true (DStatic dic_SKK_JISYO_S)]) = true.
Proof. vm_compute. reflexivity. Qed.
Example t_tests_multiple_number_composition : tsteps_ok true [
  TCheck Direct Hiragana (U "Q 1 2 slash 4 space") (U "▼12月4日") (U "") Hiragana] (tworld default_rule [mkDict false (DStatic dic_number_jisyo_dat)]) = true.
Proof. vm_compute. reflexivity. Qed.
Example t_tests_register_number : tsteps_ok true [
  TCheck Direct Hiragana (U "Q 1 k a i space numbersign 1 k a i Return") (U "") (U "１かい") Hiragana;
  TReset;
  TCheck Direct Hiragana (U "Q 2 k a i space") (U "▼２かい") (U "") Hiragana] (tworld default_rule [mkDict false (DUser dents_empty false)]) = true.
Proof. vm_compute. reflexivity. Qed.
Example t_tests_numeric_type_4 : tsteps_ok true [
  TCheck Direct Hiragana (U "Q 1 n i t i space") (U "▼初日") (U "") Hiragana] (tworld default_rule [mkDict false (DUser dic_number_jisyo_dat false)]) = true.
Proof. vm_compute. reflexivity. Qed.
Example t_tests_delete_pre_conversion : tsteps_ok true [
  TCheck Direct Hiragana (U "K o k o r C-h r o space") (U "▼心") (U "") Hiragana;
  TReset] (tworld default_rule [mkDict true (DStatic dic_SKK_JISYO_S)]) = true.
Proof. vm_compute. reflexivity. Qed.
Example t_tests_delete_on_beginning_of_register_mode : tsteps_ok true [
  TCheck Direct Hiragana (U "P e R e C-h S u") (U "▼ぺ*れ【▽す】") (U "") Hiragana;
  TReset] (tworld default_rule [mkDict true (DStatic dic_SKK_JISYO_S)]) = true.
Proof. vm_compute. reflexivity. Qed.
Example t_tests_abort_precomposite_mode : tsteps_ok true [
  TCheck Direct Hiragana (U "A i C-g A i space") (U "▼愛") (U "") Hiragana;
  TReset;
  TCheck Direct Hiragana (U "A K C-g A K i space") (U "▼開き") (U "") Hiragana] (tworld default_rule [mkDict true (DStatic dic_SKK_JISYO_S)]) = true.
Proof. vm_compute. reflexivity. Qed.
Example t_tests_abort_composition_by_previous_candidate : tsteps_ok true [
  TCheck Direct Hiragana (U "A i space x") (U "▽あい") (U "") Hiragana;
  TReset;
  TCheck Direct Hiragana (U "A K i x") (U "▽あき") (U "") Hiragana] (tworld default_rule [mkDict true (DStatic dic_SKK_JISYO_S)]) = true.
Proof. vm_compute. reflexivity. Qed.
Example t_tests_auto_start_henkan_cleanup : tsteps_ok true [
  TCheck Direct Hiragana (U "A K i A i space") (U "▼愛") (U "飽き") Hiragana;
  TReset] (tworld default_rule [mkDict true (DStatic dic_SKK_JISYO_S)]) = true.
Proof. vm_compute. reflexivity. Qed.
Example t_tests_allow_shift_as_part_of_capital_only : tsteps_ok true [
  TCheck Direct Hiragana (U "(shift l)") (U "") (U "l") Hiragana;
  TReset;
  TCheck Direct Hiragana (U "(shift L)") (U "") (U "") Zenkaku] (tworld default_rule [mkDict true (DStatic dic_SKK_JISYO_S)]) = true.
Proof. vm_compute. reflexivity. Qed.
Example t_tests_continuous_capital_kana_converting : tsteps_ok true [
  TCheck Direct Hiragana (U "T u K E") (U "▼付け") (U "") Hiragana] (tworld default_rule [mkDict true (DStatic dic_SKK_JISYO_S)]) = true.
Proof. vm_compute. reflexivity. Qed.
Example t_tests_auto_start_henkan_without_kana : tsteps_ok true [
  TCheck Direct Hiragana (U "C period") (U "▽。") (U "") Hiragana] (tworld default_rule [mkDict true (DStatic dic_SKK_JISYO_S)]) = true.
Proof. vm_compute. reflexivity. Qed.
Example t_tests_register_more_for_existing_candidate : tsteps_ok true [
  TCheck Direct Hiragana (U "A space") (U "▼候補") (U "") Hiragana;
  TReset;
  TCheck Direct Hiragana (U "A space space") (U "▼あ【】") (U "") Hiragana;
  TReset;
  TCheck Direct Hiragana (U "A space space i Return") (U "") (U "い") Hiragana;
  TReset;
  TCheck Direct Hiragana (U "A space") (U "▼い") (U "") Hiragana;
  TReset;
  TCheck Direct Hiragana (U "A space space") (U "▼候補") (U "") Hiragana] (tworld default_rule [mkDict false (DUser dic_register_test_dict_dat false)]) = true.
Proof. vm_compute. reflexivity. Qed.
Example t_tests_basic_okuri_ari : tsteps_ok true [
  TCheck Direct Hiragana (U "T u k u R i") (U "▼作り") (U "") Hiragana] (tworld default_rule [mkDict true (DStatic dic_SKK_JISYO_S)]) = true.
Proof. vm_compute. reflexivity. Qed.
Example t_tests_okuri_more_than_2_hiragana : tsteps_ok true [
  TCheck Direct Hiragana (U "I T t e") (U "▼言って") (U "") Hiragana] (tworld default_rule [mkDict false (DStatic dic_2letter_okuri_dat)]) = true.
Proof. vm_compute. reflexivity. Qed.
Example t_tests_concat_dict_entry_read : tsteps_ok true [
  TCheck Direct Hiragana (U "D o s u space") (U "▼DOS/V") (U "") Hiragana] (tworld default_rule [mkDict false (DStatic dic_concat_dict_dat)]) = true.
Proof. vm_compute. reflexivity. Qed.
Example t_tests_backspace_to_abort : tsteps_ok true [
  TCheck Direct Hiragana (U "A BackSpace BackSpace") (U "") (U "") Hiragana;
  TReset] (tworld default_rule [mkDict true (DStatic dic_SKK_JISYO_S)]) = true.
Proof. vm_compute. reflexivity. Qed.
Example t_tests_prevent_no_text_okurigana : tsteps_ok true [
  TCheck Direct Hiragana (U "Q S a") (U "▽さ") (U "") Hiragana;
  TReset] (tworld default_rule [mkDict true (DStatic dic_SKK_JISYO_S)]) = true.
Proof. vm_compute. reflexivity. Qed.
Example t_tests_prevent_no_text_henkan : tsteps_ok true [
  TCheck Direct Hiragana (U "Q space") (U "▽") (U "") Hiragana;
  TReset] (tworld default_rule [mkDict true (DStatic dic_SKK_JISYO_S)]) = true.
Proof. vm_compute. reflexivity. Qed.
Example t_tests_prevent_no_kana_henkan : tsteps_ok true [
  TCheck Direct Hiragana (U "Q k space") (U "▽k") (U "") Hiragana;
  TReset] (tworld default_rule [mkDict true (DStatic dic_SKK_JISYO_S)]) = true.
Proof. vm_compute. reflexivity. Qed.
Example t_tests_preconversion_clear_and_input : tsteps_ok true [
  TCheck Direct Hiragana (U "c minus") (U "") (U "ー") Hiragana] (tworld default_rule [mkDict true (DStatic dic_SKK_JISYO_S)]) = true.
Proof. vm_compute. reflexivity. Qed.
Example t_tests_auto_start_henkan_no_candidate : tsteps_ok true [
  TCheck Direct Hiragana (U "A a period") (U "▼ああ。【】") (U "") Hiragana] (tworld default_rule [mkDict true (DStatic dic_SKK_JISYO_S)]) = true.
Proof. vm_compute. reflexivity. Qed.
Example t_tests_confirmed_in_register : tsteps_ok true [
  TCheck Direct Hiragana (U "W a w a w a space A i space U e space") (U "▼わわわ【愛▼上】") (U "") Hiragana;
  TReset;
  TCheck Direct Hiragana (U "W a w a w a space A i space U e Tab") (U "▼わわわ【愛■上】") (U "") Hiragana;
  TReset;
  TCheck Direct Hiragana (U "W a w a w a space A i space U") (U "▼わわわ【愛▽う】") (U "") Hiragana] (tworld default_rule [mkDict true (DStatic dic_SKK_JISYO_S)]) = true.
Proof. vm_compute. reflexivity. Qed.
Example t_abbreviation_basic_abbreviation_mode : tsteps_ok true [
  TCheck Direct Hiragana (U "slash c h a l a z a") (U "▽chalaza") (U "") Hiragana;
  TReset;
  TCheck Direct Hiragana (U "slash c h a l a z a space") (U "▼カラザ") (U "") Hiragana;
  TReset;
  TCheck Direct Hiragana (U "slash c h a l a z a space Return") (U "") (U "カラザ") Hiragana] (tworld default_rule [mkDict false (DStatic dic_abbreviation_dat)]) = true.
Proof. vm_compute. reflexivity. Qed.
Example t_abbreviation_confirm_on_abbreviation_mode : tsteps_ok true [
  TCheck Direct Hiragana (U "slash c h C-j") (U "") (U "ch") Hiragana] (tworld default_rule [mkDict true (DStatic dic_SKK_JISYO_S)]) = true.
Proof. vm_compute. reflexivity. Qed.
Example t_abbreviation_confirm_as_zenkaku_on_abbreviation_mode : tsteps_ok true [
  TCheck Direct Hiragana (U "slash C h C-q") (U "") (U "Ｃｈ") Hiragana] (tworld default_rule [mkDict true (DStatic dic_SKK_JISYO_S)]) = true.
Proof. vm_compute. reflexivity. Qed.
Example t_abbreviation_delete_on_abbreviation_mode : tsteps_ok true [
  TCheck Direct Hiragana (U "slash c h BackSpace") (U "▽c") (U "") Hiragana] (tworld default_rule [mkDict true (DStatic dic_SKK_JISYO_S)]) = true.
Proof. vm_compute. reflexivity. Qed.
Example t_abbreviation_abort_after_abbreviation_mode : tsteps_ok true [
  TCheck Direct Hiragana (U "slash c h a l a z a space C-g") (U "▽chalaza") (U "") Hiragana] (tworld default_rule [mkDict true (DStatic dic_SKK_JISYO_S)]) = true.
Proof. vm_compute. reflexivity. Qed.
Example t_completion_completion_mode_from_direct : tsteps_ok true [
  TCheck Direct Hiragana (U "H o k k a i Tab") (U "■北海道") (U "") Hiragana;
  TReset;
  TCheck Direct Hiragana (U "H o k k a i Tab Return") (U "") (U "北海道") Hiragana] (tworld default_rule [mkDict true (DStatic dic_SKK_JISYO_S)]) = true.
Proof. vm_compute. reflexivity. Qed.
Example t_completion_completion_mode_continue_typing : tsteps_ok true [
  TCheck Direct Hiragana (U "H o k k a i Tab h e") (U "") (U "北海道へ") Hiragana] (tworld default_rule [mkDict true (DStatic dic_SKK_JISYO_S)]) = true.
Proof. vm_compute. reflexivity. Qed.
Example t_completion_completion_mode_multiple_candidates : tsteps_ok true [
  TCheck Direct Hiragana (U "M a k u Tab Tab") (U "■幕") (U "") Hiragana;
  TReset;
  TCheck Direct Hiragana (U "M a k u Tab Tab Tab") (U "■枕") (U "") Hiragana;
  TReset;
  TCheck Direct Hiragana (U "M a k u Tab Tab Tab Tab period") (U "■枕") (U "") Hiragana] (tworld default_rule [mkDict true (DStatic dic_SKK_JISYO_S)]) = true.
Proof. vm_compute. reflexivity. Qed.
Example t_completion_previous_completion : tsteps_ok true [
  TCheck Direct Hiragana (U "S h u u Tab Tab") (U "■修") (U "") Hiragana;
  TReset;
  TCheck Direct Hiragana (U "S h u u Tab Tab Tab") (U "■週") (U "") Hiragana;
  TReset;
  TCheck Direct Hiragana (U "S h u u Tab Tab Tab (shift Tab) comma") (U "■集") (U "") Hiragana] (tworld default_rule [mkDict true (DStatic dic_SKK_JISYO_S)]) = true.
Proof. vm_compute. reflexivity. Qed.
Example t_completion_abort : tsteps_ok true [
  TCheck Direct Hiragana (U "S e i k a Tab Tab Escape k u") (U "▽せいかく") (U "") Hiragana;
  TReset;
  TCheck Direct Hiragana (U "S e i k a Tab Tab C-g k u") (U "▽せいかく") (U "") Hiragana;
  TReset] (tworld default_rule [mkDict true (DStatic dic_SKK_JISYO_S)]) = true.
Proof. vm_compute. reflexivity. Qed.
Example t_completion_backspace : tsteps_ok true [
  TCheck Direct Hiragana (U "S e i k a Tab Tab BackSpace k u") (U "") (U "正く") Hiragana] (tworld default_rule [mkDict true (DStatic dic_SKK_JISYO_S)]) = true.
Proof. vm_compute. reflexivity. Qed.
Example t_completion_completion_mode_from_abbrev : tsteps_ok true [
  TCheck Direct Hiragana (U "slash c h a Tab") (U "■カラザ") (U "") Hiragana] (tworld default_rule [mkDict true (DStatic dic_abbreviation_dat)]) = true.
Proof. vm_compute. reflexivity. Qed.
Example t_completion_completion_mode_when_no_candidate : tsteps_ok true [
  TCheck Direct Hiragana (U "A i u e Tab") (U "▽あいうえ") (U "") Hiragana] (tworld default_rule [mkDict true (DStatic dic_SKK_JISYO_S)]) = true.
Proof. vm_compute. reflexivity. Qed.
Example t_completion_completion_mode_disabled_dictionary : tsteps_ok true [
  TCheck Direct Hiragana (U "slash c h a Tab") (U "▽cha") (U "") Hiragana] (tworld default_rule [mkDict false (DStatic dic_abbreviation_dat)]) = true.
Proof. vm_compute. reflexivity. Qed.
Example t_completion_completion_mode_abort_to_abbreviation : tsteps_ok true [
  TCheck Direct Hiragana (U "slash f a Tab C-g m Tab") (U "■家族") (U "") Hiragana] (tworld default_rule [mkDict true (DStatic dic_abbreviation_dat)]) = true.
Proof. vm_compute. reflexivity. Qed.
Example t_abort_transitions_abort_transitions : tsteps_ok true [
  TCheck Direct Hiragana (U "A k a space space space C-g") (U "▼垢") (U "") Hiragana;
  TReset;
  TCheck Direct Hiragana (U "O K i C-g") (U "▽おき") (U "") Hiragana;
  TReset;
  TCheck Direct Hiragana (U "O K C-g") (U "") (U "") Hiragana;
  TReset;
  TCheck Direct Hiragana (U "A o i O C-g") (U "▽あおいお") (U "") Hiragana] (tworld default_rule [mkDict true (DStatic dic_SKK_JISYO_S)]) = true.
Proof. vm_compute. reflexivity. Qed.
Example t_abort_transitions_abort_transitions_from_register_direct : tsteps_ok true [
  TCheck Direct Hiragana (U "A p a space C-g") (U "▽あぱ") (U "") Hiragana] (tworld default_rule [mkDict true (DStatic dic_SKK_JISYO_S)]) = true.
Proof. vm_compute. reflexivity. Qed.
Example t_abort_transitions_abort_multiple_from_composition : tsteps_ok true [
  TCheck Direct Hiragana (U "A i space C-g C-g") (U "") (U "") Hiragana;
  TReset;
  TCheck Direct Hiragana (U "A i space C-g C-g C-g") (U "") (U "") Hiragana] (tworld default_rule [mkDict true (DStatic dic_SKK_JISYO_S)]) = true.
Proof. vm_compute. reflexivity. Qed.
Example t_abort_transitions_abort_multiple_register_back_to_composition : tsteps_ok true [
  TCheck Direct Hiragana (U "H o k a space space space C-g C-g") (U "▽ほか") (U "") Hiragana] (tworld default_rule [mkDict true (DStatic dic_SKK_JISYO_S)]) = true.
Proof. vm_compute. reflexivity. Qed.
Example t_abort_transitions_abort_multiple_register_back_to_direct : tsteps_ok true [
  TCheck Direct Hiragana (U "H o k a space space space C-g C-g C-g") (U "") (U "") Hiragana] (tworld default_rule [mkDict true (DStatic dic_SKK_JISYO_S)]) = true.
Proof. vm_compute. reflexivity. Qed.
Example t_abort_transitions_abort_candidate_selection : tsteps_ok true [
  TCheck Direct Hiragana (U "A i space C-g") (U "▽あい") (U "") Hiragana] (tworld default_rule [mkDict true (DStatic dic_SKK_JISYO_S)]) = true.
Proof. vm_compute. reflexivity. Qed.
Example t_abort_transitions_abort_non_register_direct_mode : tsteps_ok true [
  TCheck Direct Hiragana (U "C-g") (U "") (U "") Hiragana] (tworld default_rule [mkDict true (DStatic dic_SKK_JISYO_S)]) = true.
Proof. vm_compute. reflexivity. Qed.
Example t_delete_transitions_delete_transitions : tsteps_ok true [
  TCheck Direct Hiragana (U "A BackSpace") (U "▽") (U "") Hiragana;
  TReset;
  TCheck Direct Hiragana (U "A BackSpace BackSpace") (U "") (U "") Hiragana;
  TReset;
  TCheck Direct Hiragana (U "A C-h") (U "▽") (U "") Hiragana;
  TReset;
  TCheck Direct Hiragana (U "A C-h C-h") (U "") (U "") Hiragana;
  TReset;
  TCheck Direct Hiragana (U "E B BackSpace") (U "▽え") (U "") Hiragana;
  TReset;
  TCheck Direct Hiragana (U "E B BackSpace r a B") (U "▽えら*b") (U "") Hiragana;
  TReset] (tworld default_rule [mkDict true (DStatic dic_SKK_JISYO_S)]) = true.
Proof. vm_compute. reflexivity. Qed.
Example t_delete_transitions_delete_from_composition_selection : tsteps_ok true [
  TCheck Direct Hiragana (U "A i s a t s u space BackSpace") (U "") (U "挨") Hiragana] (tworld default_rule [mkDict true (DStatic dic_SKK_JISYO_S)]) = true.
Proof. vm_compute. reflexivity. Qed.
Example t_dict_edit_transitions_register_mode_transitions_hiragana : tsteps_ok true [
  TCheck Direct Hiragana (U "K a p a space") (U "▼かぱ【】") (U "") Hiragana;
  TReset;
  TCheck Direct Hiragana (U "K a p a space a") (U "▼かぱ【あ】") (U "") Hiragana;
  TReset;
  TCheck Direct Hiragana (U "K a p a space K a") (U "▼かぱ【▽か】") (U "") Hiragana;
  TReset;
  TCheck Direct Hiragana (U "K a p a space K a p a space") (U "▼かぱ【▼かぱ【】】") (U "") Hiragana;
  TReset] (tworld default_rule [mkDict true (DStatic dic_SKK_JISYO_S)]) = true.
Proof. vm_compute. reflexivity. Qed.
Example t_dict_edit_transitions_register_mode_transition_abort : tsteps_ok true [
  TCheck Direct Hiragana (U "K a p a space K a p a space C-g") (U "▼かぱ【▽かぱ】") (U "") Hiragana;
  TReset;
  TCheck Direct Hiragana (U "K a p a space K a p a space C-g C-g") (U "▼かぱ【】") (U "") Hiragana] (tworld default_rule [mkDict true (DStatic dic_SKK_JISYO_S)]) = true.
Proof. vm_compute. reflexivity. Qed.
Example t_dict_edit_transitions_register_mode_dont_register_empty : tsteps_ok true [
  TCheck Direct Hiragana (U "K a p a space Return") (U "▽かぱ") (U "") Hiragana] (tworld default_rule [mkDict true (DStatic dic_SKK_JISYO_S)]) = true.
Proof. vm_compute. reflexivity. Qed.
Example t_dict_edit_transitions_register_mode_transitions_composition : tsteps_ok true [
  TCheck Direct Hiragana (U "K a p a space K a space") (U "▼かぱ【▼下】") (U "") Hiragana;
  TReset;
  TCheck Direct Hiragana (U "K a p a space K a space H a space C-j") (U "▼かぱ【下破】") (U "") Hiragana;
  TReset;
  TCheck Direct Hiragana (U "K a p a space K a space H a space C-j Return") (U "") (U "下破") Hiragana;
  TReset;
  TCheck Direct Hiragana (U "K a p a space") (U "▼下破") (U "") Hiragana] (tworld default_rule [mkDict false (DStatic dic_SKK_JISYO_S); mkDict false (DUser dents_empty false)]) = true.
Proof. vm_compute. reflexivity. Qed.
Example t_dict_edit_transitions_register_mode_purge_candidate : tsteps_ok true [
  TCheck Direct Hiragana (U "K a p a space K a space H a space C-j Return") (U "") (U "下破") Hiragana;
  TReset;
  TCheck Direct Hiragana (U "K a p a space") (U "▼下破") (U "") Hiragana;
  TReset;
  TCheck Direct Hiragana (U "K a p a space X") (U "") (U "") Hiragana;
  TReset;
  TCheck Direct Hiragana (U "K a p a space") (U "▼かぱ【】") (U "") Hiragana] (tworld default_rule [mkDict false (DStatic dic_SKK_JISYO_S); mkDict false (DUser dents_empty false)]) = true.
Proof. vm_compute. reflexivity. Qed.
Example t_dict_edit_transitions_register_mode_okuri_ari : tsteps_ok true [
  TCheck Direct Hiragana (U "K a n g a E space") (U "▼かんが*え【】") (U "") Hiragana] (tworld default_rule [mkDict true (DStatic dic_SKK_JISYO_S)]) = true.
Proof. vm_compute. reflexivity. Qed.
Example t_dict_edit_transitions_register_mode_katakana : tsteps_ok true [
  TCheck Direct Hiragana (U "K a t a k a n a space space K a t a k a n a q") (U "▼かたかな【カタカナ】") (U "") Hiragana;
  TReset;
  TCheck Direct Hiragana (U "K a t a k a n a space space K a t a k a n a q l n a") (U "▼かたかな【カタカナna】") (U "") Ascii;
  TReset;
  TCheck Direct Hiragana (U "K a t a k a n a space space K a t a k a n a q C-m") (U "") (U "カタカナ") Hiragana;
  TReset;
  TCheck Direct Hiragana (U "K a t a k a n a space space K a t a k a n a q l n a") (U "▼かたかな【カタカナna】") (U "") Ascii] (tworld default_rule [mkDict true (DStatic dic_SKK_JISYO_S)]) = true.
Proof. vm_compute. reflexivity. Qed.
Example t_dict_edit_transitions_register_mode_xtsu : tsteps_ok true [
  TCheck Direct Hiragana (U "t a k K u n space") (U "▼っくん【】") (U "た") Hiragana] (tworld default_rule [mkDict true (DStatic dic_SKK_JISYO_S)]) = true.
Proof. vm_compute. reflexivity. Qed.
Example t_dict_edit_transitions_register_mode_input_modes_change : tsteps_ok true [
  TCheck Direct Hiragana (U "K a n j i k a t a k a n a k a n j i space K a n j i space K a t a k a n a q K a n j i space C-j") (U "▼かんじかたかなかんじ【漢字カタカナ漢字】") (U "") Hiragana;
  TReset;
  TCheck Direct Hiragana (U "T e s u t o t e s u t o t e s u t o t e s u t o space t e s u t o T e s u t o q q T e s u t o q T e s u t o C-q  C-q T e s u t o q") (U "▼てすとてすとてすとてすと【てすとテストてすとﾃｽﾄてすと】") (U "") HankakuKatakana] (tworld default_rule [mkDict true (DStatic dic_SKK_JISYO_S)]) = true.
Proof. vm_compute. reflexivity. Qed.
Example t_input_mode_transitions_input_mode_transitions_hiragana : tsteps_ok true [
  TCheck Direct Hiragana (U "q") (U "") (U "") Katakana;
  TReset;
  TCheck Direct Hiragana (U "C-q") (U "") (U "") HankakuKatakana;
  TReset;
  TCheck Direct Hiragana (U "l") (U "") (U "") Ascii;
  TReset;
  TCheck Direct Hiragana (U "L") (U "") (U "") Zenkaku;
  TReset;
  TCheck Direct Hiragana (U "w w q") (U "") (U "っ") Katakana;
  TReset;
  TCheck Direct Hiragana (U "l Q") (U "") (U "Q") Ascii;
  TReset;
  TCheck Direct Hiragana (U "n q") (U "") (U "ん") Katakana;
  TReset;
  TCheck Direct Hiragana (U "n l") (U "") (U "ん") Ascii] (tworld default_rule [mkDict true (DStatic dic_SKK_JISYO_S)]) = true.
Proof. vm_compute. reflexivity. Qed.
Example t_input_mode_transitions_input_mode_transition_katakana : tsteps_ok true [
  TCheck Direct Katakana (U "q") (U "") (U "") Hiragana;
  TReset;
  TCheck Direct Katakana (U "C-q") (U "") (U "") HankakuKatakana;
  TReset;
  TCheck Direct Katakana (U "l") (U "") (U "") Ascii;
  TReset;
  TCheck Direct Katakana (U "L") (U "") (U "") Zenkaku;
  TReset;
  TCheck Direct Katakana (U "n q") (U "") (U "ン") Hiragana] (tworld default_rule [mkDict true (DStatic dic_SKK_JISYO_S)]) = true.
Proof. vm_compute. reflexivity. Qed.
Example t_input_mode_transitions_input_mode_transition_hankakukatakana : tsteps_ok true [
  TCheck Direct HankakuKatakana (U "q") (U "") (U "") Hiragana;
  TReset;
  TCheck Direct HankakuKatakana (U "l") (U "") (U "") Ascii;
  TReset;
  TCheck Direct HankakuKatakana (U "L") (U "") (U "") Zenkaku] (tworld default_rule [mkDict true (DStatic dic_SKK_JISYO_S)]) = true.
Proof. vm_compute. reflexivity. Qed.
Example t_input_mode_transitions_input_mode_transition_ascii : tsteps_ok true [
  TCheck Direct Ascii (U "C-j") (U "") (U "") Hiragana] (tworld default_rule [mkDict true (DStatic dic_SKK_JISYO_S)]) = true.
Proof. vm_compute. reflexivity. Qed.
Example t_numeric_transitions_numeric_transitions : tsteps_ok true [
  TCheck Direct Hiragana (U "Q 5 slash 1 space") (U "▼5月1日") (U "") Hiragana;
  TReset;
  TCheck Direct Hiragana (U "Q 5 h i k i space") (U "▼５匹") (U "") Hiragana;
  TReset;
  TCheck Direct Hiragana (U "Q 5 h i k i space space") (U "▼五匹") (U "") Hiragana;
  TReset;
  TCheck Direct Hiragana (U "Q 5 h i k i space space C-j") (U "") (U "五匹") Hiragana;
  TReset;
  TCheck Direct Hiragana (U "Q 1 h i k i space") (U "▼一匹") (U "") Hiragana;
  TReset;
  TCheck Direct Hiragana (U "Q 5 0 0 0 0 h i k i space") (U "▼五万匹") (U "") Hiragana;
  TReset;
  TCheck Direct Hiragana (U "Q 1 0 h i k i space") (U "▼十匹") (U "") Hiragana;
  TReset;
  TCheck Direct Hiragana (U "Q 1 1 1 1 1 h i k i space") (U "▼一万千百十一匹") (U "") Hiragana] (tworld default_rule [mkDict false (DUser dic_number_jisyo_dat false)]) = true.
Proof. vm_compute. reflexivity. Qed.
Example t_okuri_ari_transitions_basic : tsteps_ok true [
  TCheck Direct Hiragana (U "K a n g a E") (U "▼考え") (U "") Hiragana;
  TReset;
  TCheck Direct Hiragana (U "K a n g a E r") (U "r") (U "考え") Hiragana;
  TReset;
  TCheck Direct Hiragana (U "H a Z") (U "▽は*z") (U "") Hiragana;
  TReset;
  TCheck Direct Hiragana (U "H a Z u") (U "▼恥ず") (U "") Hiragana;
  TReset;
  TCheck Direct Hiragana (U "T u k a T t") (U "▽つか*っt") (U "") Hiragana] (tworld default_rule [mkDict true (DStatic dic_SKK_JISYO_S)]) = true.
Proof. vm_compute. reflexivity. Qed.
Example t_okuri_ari_transitions_check_nn_on_composition_mode_switching : tsteps_ok true [
  TCheck Direct Hiragana (U "K a n J") (U "▽かん*j") (U "") Hiragana;
  TReset;
  TCheck Direct Hiragana (U "K a n Z i") (U "▼感じ") (U "") Hiragana;
  TReset;
  TCheck Direct Hiragana (U "F u N d a") (U "▼踏んだ") (U "") Hiragana] (tworld default_rule [mkDict true (DStatic dic_SKK_JISYO_S)]) = true.
Proof. vm_compute. reflexivity. Qed.
Example t_okuri_ari_transitions_check_small_tsu_on_okuri_ending : tsteps_ok true [
  TCheck Direct Hiragana (U "S a s S") (U "▽さっ*s") (U "") Hiragana] (tworld default_rule [mkDict true (DStatic dic_SKK_JISYO_S)]) = true.
Proof. vm_compute. reflexivity. Qed.
Example t_okuri_ari_transitions_check_small_tsu_on_okuri_starting : tsteps_ok true [
  TCheck Direct Hiragana (U "S a S s") (U "▽さ*っs") (U "") Hiragana] (tworld default_rule [mkDict true (DStatic dic_SKK_JISYO_S)]) = true.
Proof. vm_compute. reflexivity. Qed.
Example t_okuri_ari_transitions_katakana_okuri : tsteps_ok true [
  TCheck Direct Hiragana (U "q S i r o K u") (U "▼白ク") (U "") Katakana;
  TReset;
  TCheck Direct Hiragana (U "q S i r o K u Return") (U "") (U "白ク") Katakana] (tworld default_rule [mkDict true (DStatic dic_SKK_JISYO_S)]) = true.
Proof. vm_compute. reflexivity. Qed.
Example t_okuri_ari_transitions_cancel_dict_edit : tsteps_ok true [
  TCheck Direct Hiragana (U "T e t u d a I space C-g") (U "▼手伝い") (U "") Hiragana] (tworld default_rule [mkDict true (DStatic dic_SKK_JISYO_S)]) = true.
Proof. vm_compute. reflexivity. Qed.
Example t_okuri_ari_transitions_dict_edit_initial_state : tsteps_ok true [
  TCheck Direct Hiragana (U "N e o C h i N") (U "▼ねお*ち【▽n】") (U "") Hiragana] (tworld default_rule [mkDict true (DStatic dic_SKK_JISYO_S)]) = true.
Proof. vm_compute. reflexivity. Qed.
Example t_okuri_nasi_transitions_okuri_nasi_transitions_basic : tsteps_ok true [
  TCheck Direct Hiragana (U "A") (U "▽あ") (U "") Hiragana;
  TReset;
  TCheck Direct Hiragana (U "A i") (U "▽あい") (U "") Hiragana;
  TReset;
  TCheck Direct Hiragana (U "A i space") (U "▼愛") (U "") Hiragana;
  TReset;
  TCheck Direct Hiragana (U "A i space space") (U "▼哀") (U "") Hiragana;
  TReset;
  TCheck Direct Hiragana (U "A i space space Return") (U "") (U "哀") Hiragana] (tworld default_rule [mkDict true (DStatic dic_SKK_JISYO_S)]) = true.
Proof. vm_compute. reflexivity. Qed.
Example t_okuri_nasi_transitions_okuri_nasi_transitions_kanjis : tsteps_ok true [
  TCheck Direct Hiragana (U "I z e n space") (U "▼以前") (U "") Hiragana;
  TReset;
  TCheck Direct Hiragana (U "K a n j i space C-j") (U "") (U "漢字") Hiragana;
  TReset;
  TCheck Direct Hiragana (U "K a n j i space C-g") (U "▽かんじ") (U "") Hiragana] (tworld default_rule [mkDict true (DStatic dic_SKK_JISYO_S)]) = true.
Proof. vm_compute. reflexivity. Qed.
Example t_okuri_nasi_transitions_okuri_nasi_transitions_other_inputmodes : tsteps_ok true [
  TCheck Direct HankakuKatakana (U "K a n j i space") (U "▼漢字") (U "") HankakuKatakana;
  TReset;
  TCheck Direct Hiragana (U "K a n j i space q") (U "") (U "漢字") Katakana;
  TReset;
  TCheck Direct Katakana (U "K a n j i space q") (U "") (U "漢字") Hiragana] (tworld default_rule [mkDict true (DStatic dic_SKK_JISYO_S)]) = true.
Proof. vm_compute. reflexivity. Qed.
Example t_okuri_nasi_transitions_okuri_nasi_transitions_ignore_non_command_ctrl : tsteps_ok true [
  TCheck Direct Hiragana (U "A o space Control_L") (U "▼青") (U "") Hiragana] (tworld default_rule [mkDict true (DStatic dic_SKK_JISYO_S)]) = true.
Proof. vm_compute. reflexivity. Qed.
Example t_rom_kana_transitions_rom_kana_transitions_basic : tsteps_ok true [
  TCheck Direct Hiragana (U "k") (U "k") (U "") Hiragana;
  TReset;
  TCheck Direct Hiragana (U "k a") (U "") (U "か") Hiragana;
  TReset;
  TCheck Direct Hiragana (U "m") (U "m") (U "") Hiragana;
  TReset;
  TCheck Direct Hiragana (U "m y") (U "my") (U "") Hiragana;
  TReset;
  TCheck Direct Hiragana (U "m y o") (U "") (U "みょ") Hiragana;
  TReset;
  TCheck Direct Hiragana (U "q") (U "") (U "") Katakana;
  TReset;
  TCheck Direct Katakana (U "k") (U "k") (U "") Katakana;
  TReset;
  TCheck Direct Katakana (U "k a") (U "") (U "カ") Katakana;
  TReset;
  TCheck Direct Katakana (U "n period") (U "") (U "ン。") Katakana;
  TReset] (tworld default_rule [mkDict true (DStatic dic_SKK_JISYO_S)]) = true.
Proof. vm_compute. reflexivity. Qed.
Example t_rom_kana_transitions_rom_kana_transitions_include_command_letter : tsteps_ok true [
  TCheck Direct Hiragana (U "z l") (U "") (U "→") Hiragana] (tworld default_rule [mkDict true (DStatic dic_SKK_JISYO_S)]) = true.
Proof. vm_compute. reflexivity. Qed.
Example t_rom_kana_transitions_rom_kana_transitions_abort : tsteps_ok true [
  TCheck Direct Hiragana (U "m y C-g") (U "") (U "") Hiragana;
  TReset;
  TCheck Direct Hiragana (U "m y a C-g") (U "") (U "みゃ") Hiragana] (tworld default_rule [mkDict true (DStatic dic_SKK_JISYO_S)]) = true.
Proof. vm_compute. reflexivity. Qed.
Example t_rom_kana_transitions_rom_kana_transitions_kana_form_change_without_input_mode : tsteps_ok true [
  TCheck Direct Hiragana (U "A i q") (U "") (U "アイ") Hiragana;
  TReset;
  TCheck Direct Katakana (U "A i q") (U "") (U "あい") Katakana] (tworld default_rule [mkDict true (DStatic dic_SKK_JISYO_S)]) = true.
Proof. vm_compute. reflexivity. Qed.
Example t_rom_kana_transitions_rom_kana_conversion_vu_conversion : tsteps_ok true [
  TCheck Direct Hiragana (U "V u") (U "▽ゔ") (U "") Hiragana;
  TReset;
  TCheck Direct Hiragana (U "V u q") (U "") (U "ヴ") Hiragana;
  TReset;
  TCheck Direct Katakana (U "V u") (U "▽ヴ") (U "") Katakana;
  TReset;
  TCheck Direct Katakana (U "V u") (U "▽ヴ") (U "") Katakana;
  TReset;
  TCheck Direct Katakana (U "V u q") (U "") (U "ゔ") Katakana] (tworld default_rule [mkDict true (DStatic dic_SKK_JISYO_S)]) = true.
Proof. vm_compute. reflexivity. Qed.
Example t_rom_kana_transitions_rom_kana_conversion_vu_hankaku : tsteps_ok true [
  TCheck Direct HankakuKatakana (U "v u") (U "") (U "ｳﾞ") HankakuKatakana;
  TReset;
  TCheck Direct HankakuKatakana (U "V u q") (U "") (U "ゔ") HankakuKatakana] (tworld default_rule [mkDict true (DStatic dic_SKK_JISYO_S)]) = true.
Proof. vm_compute. reflexivity. Qed.
Example t_rom_kana_transitions_rom_kana_transitions_with_inputs : tsteps_ok true [
  TCheck Direct Hiragana (U "Q n q") (U "") (U "ン") Hiragana;
  TReset;
  TCheck Direct Hiragana (U "Q Q") (U "▽") (U "") Hiragana;
  TReset;
  TCheck Direct Hiragana (U "N o b a minus s u C-q") (U "") (U "ﾉﾊﾞｰｽ") Hiragana] (tworld default_rule [mkDict true (DStatic dic_SKK_JISYO_S)]) = true.
Proof. vm_compute. reflexivity. Qed.
Example t_rom_kana_transitions_simple_space : tsteps_ok true [
  TCheck Direct Hiragana (U "space") (U "") (U " ") Hiragana] (tworld default_rule [mkDict true (DStatic dic_SKK_JISYO_S)]) = true.
Proof. vm_compute. reflexivity. Qed.
Example t_rom_kana_transitions_n_to_nn : tsteps_ok true [
  TCheck Direct Hiragana (U "n space") (U "") (U "ん ") Hiragana] (tworld default_rule [mkDict true (DStatic dic_SKK_JISYO_S)]) = true.
Proof. vm_compute. reflexivity. Qed.
Example t_rom_kana_transitions_w_as_kana : tsteps_ok true [
  TCheck Direct Hiragana (U "W o") (U "▽を") (U "") Hiragana] (tworld default_rule [mkDict true (DStatic dic_SKK_JISYO_S)]) = true.
Proof. vm_compute. reflexivity. Qed.
Example t_rom_kana_transitions_pass_through_tabs : tsteps_ok true [
  TCheck Direct Hiragana (U "Tab K a") (U "▽か") (U "") Hiragana;
  TReset;
  TCheck Direct Ascii (U "a Tab") (U "") (U "a") Ascii] (tworld default_rule [mkDict true (DStatic dic_SKK_JISYO_S)]) = true.
Proof. vm_compute. reflexivity. Qed.
Example t_rom_kana_transitions_n_followed_by_capital : tsteps_ok true [
  TCheck Direct Hiragana (U "q s a n S y a") (U "▽シャ") (U "サン") Katakana;
  TReset] (tworld default_rule [mkDict true (DStatic dic_SKK_JISYO_S)]) = true.
Proof. vm_compute. reflexivity. Qed.
Example t_rom_kana_transitions_pass_through_ctrl_only : tsteps_ok true [
  TCheck Direct Hiragana (U "H o h Control_L a a a a a") (U "▽ほはああああ") (U "") Hiragana;
  TReset] (tworld default_rule [mkDict true (DStatic dic_SKK_JISYO_S)]) = true.
Proof. vm_compute. reflexivity. Qed.
Example t_azik_rule_basic : tsteps_ok true [
  TCheck Direct Hiragana (U "semicolon") (U "") (U "っ") Hiragana;
  TReset] (tworld azik_rule [mkDict true (DStatic dic_SKK_JISYO_S)]) = true.
Proof. vm_compute. reflexivity. Qed.
Example t_azik_rule_xx_youon : tsteps_ok true [
  TCheck Direct Hiragana (U "x x a") (U "") (U "ぁ") Hiragana;
  TReset] (tworld azik_rule [mkDict true (DStatic dic_SKK_JISYO_S)]) = true.
Proof. vm_compute. reflexivity. Qed.
Example t_azik_rule_check_default_rule_removed : tsteps_ok true [
  TCheck Direct Hiragana (U "t h e") (U "") (U "つうえ") Hiragana;
  TReset;
  TCheck Direct Hiragana (U "c a") (U "") (U "ちゃ") Hiragana] (tworld azik_rule [mkDict true (DStatic dic_SKK_JISYO_S)]) = true.
Proof. vm_compute. reflexivity. Qed.
Example t_azik_rule_using_q : tsteps_ok true [
  TCheck Direct Hiragana (U "q") (U "") (U "ん") Hiragana;
  TReset] (tworld azik_rule [mkDict true (DStatic dic_SKK_JISYO_S)]) = true.
Proof. vm_compute. reflexivity. Qed.
Example t_azik_rule_check_two_letter_keysyms : tsteps_ok true [
  TCheck Direct Hiragana (U "m u") (U "") (U "む") Hiragana;
  TReset;
  TCheck Direct Hiragana (U "h t") (U "") (U "ひと") Hiragana] (tworld azik_rule [mkDict true (DStatic dic_SKK_JISYO_S)]) = true.
Proof. vm_compute. reflexivity. Qed.
Example t_azik_rule_mode_switching_key : tsteps_ok true [
  TCheck Direct Hiragana (U "bracketleft") (U "") (U "「") Hiragana;
  TReset;
  TCheck Direct Hiragana (U "(control at)") (U "") (U "") HankakuKatakana] (tworld azik_rule [mkDict true (DStatic dic_SKK_JISYO_S)]) = true.
Proof. vm_compute. reflexivity. Qed.
Example t_azik_rule_hankaku_mode_changing : tsteps_ok true [
  TCheck Direct Hiragana (U "n n C-at") (U "") (U "ん") HankakuKatakana;
  TReset;
  TCheck Direct HankakuKatakana (U "n n C-at") (U "") (U "ﾝ") Katakana] (tworld azik_rule [mkDict true (DStatic dic_SKK_JISYO_S)]) = true.
Proof. vm_compute. reflexivity. Qed.
Example t_azik_rule_hiragana_precomposition_input : tsteps_ok true [
  TCheck PreComposition Hiragana (U "a at") (U "") (U "ア") Hiragana;
  TReset;
  TCheck PreComposition Hiragana (U "a C-at") (U "") (U "ｱ") Hiragana] (tworld azik_rule [mkDict true (DStatic dic_SKK_JISYO_S)]) = true.
Proof. vm_compute. reflexivity. Qed.
Example t_azik_rule_katakana_precomposition_input : tsteps_ok true [
  TCheck PreComposition Katakana (U "a at") (U "") (U "あ") Katakana;
  TReset;
  TCheck PreComposition Katakana (U "a C-at") (U "") (U "ｱ") Katakana] (tworld azik_rule [mkDict true (DStatic dic_SKK_JISYO_S)]) = true.
Proof. vm_compute. reflexivity. Qed.
Example t_azik_rule_hankaku_precomposition_input : tsteps_ok true [
  TCheck PreComposition HankakuKatakana (U "a at") (U "") (U "あ") HankakuKatakana;
  TReset;
  TCheck PreComposition HankakuKatakana (U "a C-at") (U "") (U "ア") HankakuKatakana] (tworld azik_rule [mkDict true (DStatic dic_SKK_JISYO_S)]) = true.
Proof. vm_compute. reflexivity. Qed.
Example t_azik_rule_original_small_tu : tsteps_ok true [
  TCheck Direct Hiragana (U "K a T U") (U "▼勝っ") (U "") Hiragana;
  TReset;
  TCheck Direct Hiragana (U "K a t U") (U "▽かっ") (U "") Hiragana;
  TReset;
  TCheck Direct Hiragana (U "t U") (U "") (U "っ") Hiragana;
  TReset;
  TCheck Direct Hiragana (U "T U") (U "▽っ") (U "") Hiragana] (tworld azik_rule [mkDict true (DStatic dic_SKK_JISYO_S)]) = true.
Proof. vm_compute. reflexivity. Qed.
Example t_azik_rule_original_small_tu_longer : tsteps_ok true [
  TCheck Direct Hiragana (U "x x t u") (U "") (U "っ") Hiragana] (tworld azik_rule [mkDict true (DStatic dic_SKK_JISYO_S)]) = true.
Proof. vm_compute. reflexivity. Qed.
Example t_default_rule_z_slash : tsteps_ok true [
  TCheck Direct Hiragana (U "z slash") (U "") (U "・") Hiragana;
  TReset] (tworld default_rule [mkDict true (DStatic dic_SKK_JISYO_S)]) = true.
Proof. vm_compute. reflexivity. Qed.
Example t_default_rule_mu : tsteps_ok true [
  TCheck Direct Hiragana (U "m u") (U "") (U "む") Hiragana;
  TReset] (tworld default_rule [mkDict true (DStatic dic_SKK_JISYO_S)]) = true.
Proof. vm_compute. reflexivity. Qed.
Example t_default_rule_hankaku_mode_changing : tsteps_ok true [
  TCheck Direct Hiragana (U "n C-q") (U "") (U "ん") HankakuKatakana;
  TReset;
  TCheck Direct HankakuKatakana (U "n C-q") (U "") (U "ﾝ") Katakana] (tworld default_rule [mkDict true (DStatic dic_SKK_JISYO_S)]) = true.
Proof. vm_compute. reflexivity. Qed.
Example t_default_rule_hiragana_precomposition_input : tsteps_ok true [
  TCheck PreComposition Hiragana (U "a q") (U "") (U "ア") Hiragana;
  TReset;
  TCheck PreComposition Hiragana (U "a C-q") (U "") (U "ｱ") Hiragana] (tworld default_rule [mkDict true (DStatic dic_SKK_JISYO_S)]) = true.
Proof. vm_compute. reflexivity. Qed.
Example t_default_rule_katakana_precomposition_input : tsteps_ok true [
  TCheck PreComposition Katakana (U "a q") (U "") (U "あ") Katakana;
  TReset;
  TCheck PreComposition Katakana (U "a C-q") (U "") (U "ｱ") Katakana] (tworld default_rule [mkDict true (DStatic dic_SKK_JISYO_S)]) = true.
Proof. vm_compute. reflexivity. Qed.
Example t_default_rule_hankaku_precomposition_input : tsteps_ok true [
  TCheck PreComposition HankakuKatakana (U "a q") (U "") (U "あ") HankakuKatakana;
  TReset;
  TCheck PreComposition HankakuKatakana (U "a C-q") (U "") (U "ア") HankakuKatakana] (tworld default_rule [mkDict true (DStatic dic_SKK_JISYO_S)]) = true.
Proof. vm_compute. reflexivity. Qed.
Example t_default_rule_ambiguous_kana : tsteps_ok true [
  TCheck Direct Hiragana (U "n") (U "n") (U "") Hiragana;
  TReset;
  TCheck Direct Hiragana (U "n a") (U "") (U "な") Hiragana;
  TReset;
  TCheck Direct Hiragana (U "n d a") (U "") (U "んだ") Hiragana] (tworld default_rule [mkDict true (DStatic dic_SKK_JISYO_S)]) = true.
Proof. vm_compute. reflexivity. Qed.
