(** RustText.v: written by tools/gen_text.py, which can also compare it with /repo.  The text of
    source files up to their test modules, without blank lines and lines that hold nothing but a
    comment. *)
From Coq Require Import String.
Local Open Scope string_scope.

(** src/constants.rs:1-8 *)
Definition src_constants : string :=
"pub const PRIMES: [i32; 13] = [2, 3, 5, 7, 11, 13, 17, 19, 23, 29, 31, 37, 41];
pub const INT_RANKS: std::ops::Range<i16> = 0..13;
".

(** src/error.rs:1-290 *)
Definition src_error : string :=
"use std::{error::Error, fmt};
use itertools::Itertools;
use crate::card::Card;
#[derive(Debug, Clone, PartialEq, Eq)]
pub enum ParseCardError {
    InvalidLength {
        original_input: String,
    },
    InvalidRank {
        original_input: String,
        incorrect_char: char,
    },
    InvalidSuit {
        original_input: String,
        incorrect_char: char,
    },
}
impl fmt::Display for ParseCardError {
    fn fmt(&self, f: &mut fmt::Formatter<'_>) -> fmt::Result {
        match *self {
            Self::InvalidLength { ref original_input } => write!(
                f,
                ""Error parsing input '{}' as a Card: Found input of length {}, expected 2"",
                original_input,
                original_input.len()
            ),
            Self::InvalidRank {
                ref original_input,
                incorrect_char,
            } => write!(
                f,
                ""Error parsing input '{}' as a Card: Invalid rank character '{}', expected one of \
                 [23456789TJQKA]"",
                original_input, incorrect_char
            ),
            Self::InvalidSuit {
                ref original_input,
                incorrect_char,
            } => write!(
                f,
                ""Error parsing input '{}' as a Card: Invalid suit character '{}', expected one of \
                 [chsd]"",
                original_input, incorrect_char
            ),
        }
    }
}
impl Error for ParseCardError {}
#[derive(Debug, Clone, PartialEq, Eq)]
pub enum EvalError {
    CardsNotUnique(Vec<Card>),
    InvalidHandSize(usize),
}
impl fmt::Display for EvalError {
    fn fmt(&self, f: &mut fmt::Formatter<'_>) -> fmt::Result {
        match *self {
            Self::CardsNotUnique(ref cards) => {
                let dups: String = cards
                    .iter()
                    .counts()
                    .into_iter()
                    .filter_map(|(card, count)| {
                        if count > 1 {
                            Some(card.rank_suit_string())
                        } else {
                            None
                        }
                    })
                    .collect::<Vec<_>>()
                    .join("" "");
                write!(
                    f,
                    ""Cannot evaluate a poker hand with a set of cards that are not unique. Cards \
                     duplicated at least once: {}"",
                    dups
                )
            }
            Self::InvalidHandSize(size) => write!(
                f,
                ""Cannot evaluate a poker hand with a set of less than 5 cards. Number of cards \
                 received: {}"",
                size
            ),
        }
    }
}
impl Error for EvalError {}
".

(** src/card/rank.rs:1-200 *)
Definition src_card_rank : string :=
"use std::{
    convert::TryFrom,
    fmt::{self, Write},
};
#[derive(Debug, Copy, Clone, PartialEq, Eq, Hash, PartialOrd, Ord)]
pub enum Rank {
    Two,
    Three,
    Four,
    Five,
    Six,
    Seven,
    Eight,
    Nine,
    Ten,
    Jack,
    Queen,
    King,
    Ace,
}
impl Rank {
    pub(crate) const ALL_VARIANTS: &[Self] = &[
        Self::Two,
        Self::Three,
        Self::Four,
        Self::Five,
        Self::Six,
        Self::Seven,
        Self::Eight,
        Self::Nine,
        Self::Ten,
        Self::Jack,
        Self::Queen,
        Self::King,
        Self::Ace,
    ];
    pub const fn as_char(self) -> char {
        use Rank::*;
        match self {
            Ace => 'A',
            Two => '2',
            Three => '3',
            Four => '4',
            Five => '5',
            Six => '6',
            Seven => '7',
            Eight => '8',
            Nine => '9',
            Ten => 'T',
            Jack => 'J',
            Queen => 'Q',
            King => 'K',
        }
    }
    pub(super) const fn as_i32(self) -> i32 {
        use Rank::*;
        match self {
            Two => 0,
            Three => 1,
            Four => 2,
            Five => 3,
            Six => 4,
            Seven => 5,
            Eight => 6,
            Nine => 7,
            Ten => 8,
            Jack => 9,
            Queen => 10,
            King => 11,
            Ace => 12,
        }
    }
    pub(super) const fn from_i32(val: i32) -> Self {
        use Rank::*;
        match val {
            0 => Two,
            1 => Three,
            2 => Four,
            3 => Five,
            4 => Six,
            5 => Seven,
            6 => Eight,
            7 => Nine,
            8 => Ten,
            9 => Jack,
            10 => Queen,
            11 => King,
            _ => Ace,
        }
    }
    pub(crate) const fn as_str_name(self) -> &'static str {
        use Rank::*;
        match self {
            Two => ""two"",
            Three => ""three"",
            Four => ""four"",
            Five => ""five"",
            Six => ""six"",
            Seven => ""seven"",
            Eight => ""eight"",
            Nine => ""nine"",
            Ten => ""ten"",
            Jack => ""jack"",
            Queen => ""queen"",
            King => ""king"",
            Ace => ""ace"",
        }
    }
    pub(crate) const fn as_str_name_plural(self) -> &'static str {
        use Rank::*;
        match self {
            Two => ""twos"",
            Three => ""threes"",
            Four => ""fours"",
            Five => ""fives"",
            Six => ""sixes"",
            Seven => ""sevens"",
            Eight => ""eights"",
            Nine => ""nines"",
            Ten => ""tens"",
            Jack => ""jacks"",
            Queen => ""queens"",
            King => ""kings"",
            Ace => ""aces"",
        }
    }
}
impl TryFrom<char> for Rank {
    type Error = char;
    fn try_from(value: char) -> Result<Self, Self::Error> {
        use Rank::*;
        match value {
            'A' => Ok(Ace),
            '2' => Ok(Two),
            '3' => Ok(Three),
            '4' => Ok(Four),
            '5' => Ok(Five),
            '6' => Ok(Six),
            '7' => Ok(Seven),
            '8' => Ok(Eight),
            '9' => Ok(Nine),
            'T' => Ok(Ten),
            'J' => Ok(Jack),
            'Q' => Ok(Queen),
            'K' => Ok(King),
            x => Err(x),
        }
    }
}
impl fmt::Display for Rank {
    fn fmt(&self, f: &mut fmt::Formatter<'_>) -> fmt::Result { f.write_char(self.as_char()) }
}
".

(** src/card/suit.rs:1-114 *)
Definition src_card_suit : string :=
"use std::{
    convert::TryFrom,
    fmt::{self, Write},
};
#[derive(Debug, Copy, Clone, PartialEq, Eq, Hash)]
pub enum Suit {
    Clubs,
    Hearts,
    Spades,
    Diamonds,
}
impl Suit {
    pub(crate) const ALL_VARIANTS: &[Self] =
        &[Self::Clubs, Self::Hearts, Self::Spades, Self::Diamonds];
    pub const fn as_pretty_char(self) -> char {
        use Suit::*;
        match self {
            Spades => '\u{2660}',   // ♠
            Hearts => '\u{2665}',   // ♥
            Clubs => '\u{2663}',    // ♣
            Diamonds => '\u{2666}', // ♦
        }
    }
    pub const fn as_char(self) -> char {
        use Suit::*;
        match self {
            Clubs => 'c',
            Hearts => 'h',
            Spades => 's',
            Diamonds => 'd',
        }
    }
    pub(super) const fn as_i32(self) -> i32 {
        use Suit::*;
        match self {
            Clubs => 8,
            Hearts => 2,
            Spades => 1,
            Diamonds => 4,
        }
    }
    pub(super) const fn from_i32(val: i32) -> Self {
        use Suit::*;
        match val {
            0b1000 => Clubs,
            0b0100 => Diamonds,
            0b0010 => Hearts,
            _ => Spades,
        }
    }
}
impl TryFrom<char> for Suit {
    type Error = char;
    fn try_from(value: char) -> Result<Self, Self::Error> {
        use Suit::*;
        match value {
            's' => Ok(Spades),
            'c' => Ok(Clubs),
            'h' => Ok(Hearts),
            'd' => Ok(Diamonds),
            x => Err(x),
        }
    }
}
impl fmt::Display for Suit {
    fn fmt(&self, f: &mut fmt::Formatter<'_>) -> fmt::Result { f.write_char(self.as_pretty_char()) }
}
".

(** src/card/mod.rs:1-436 *)
Definition src_card_mod : string :=
"mod macros;
pub(crate) mod rank;
pub(crate) mod suit;
use std::{
    cmp::Ordering,
    convert::{TryFrom, TryInto},
    fmt,
    hash::Hash,
    iter::{FromIterator, FusedIterator},
    str::FromStr,
};
#[doc(inline)]
pub use self::{rank::Rank, suit::Suit};
use crate::{constants::PRIMES, error::ParseCardError};
#[derive(Copy, Clone, PartialEq, Eq, Hash)]
pub struct Card {
    unique_integer: i32,
}
impl Card {
    pub const fn new(rank: Rank, suit: Suit) -> Self {
        let rank_int = rank.as_i32();
        let suit_int = suit.as_i32();
        let rank_prime = PRIMES[rank_int as usize];
        let bit_rank = (1 << rank_int) << 16;
        let card_suit = suit_int << 12;
        let card_rank = rank_int << 8;
        Self {
            unique_integer: bit_rank | card_suit | card_rank | rank_prime,
        }
    }
    pub fn try_from_chars(rank_char: char, suit_char: char) -> Result<Self, ParseCardError> {
        let rank = rank_char
            .try_into()
            .map_err(|incorrect_char| ParseCardError::InvalidRank {
                original_input: rank_char.to_string(),
                incorrect_char,
            })?;
        let suit = suit_char
            .try_into()
            .map_err(|incorrect_char| ParseCardError::InvalidSuit {
                original_input: suit_char.to_string(),
                incorrect_char,
            })?;
        Ok(Self::new(rank, suit))
    }
    pub const fn rank(self) -> Rank {
        let rank_int = (self.unique_integer >> 8) & 0xF;
        Rank::from_i32(rank_int)
    }
    pub const fn suit(self) -> Suit {
        let suit_int = (self.unique_integer >> 12) & 0xF;
        Suit::from_i32(suit_int)
    }
    pub const fn unique_integer(self) -> i32 { self.unique_integer }
    pub fn rank_suit_string(self) -> String {
        let mut s = String::with_capacity(2);
        s.push(self.rank().as_char());
        s.push(self.suit().as_char());
        s
    }
    pub fn parse_to_iter<S>(
        strings: S,
    ) -> ParseToIter<impl Iterator<Item = Result<Self, ParseCardError>>>
    where
        S: IntoIterator,
        S::Item: AsRef<str>,
    {
        ParseToIter(strings.into_iter().map(|s| s.as_ref().parse()))
    }
}
impl FromStr for Card {
    type Err = ParseCardError;
    fn from_str(value: &str) -> Result<Self, Self::Err> {
        let mut chars = value.chars();
        if let (Some(rank), Some(suit), None) = (chars.next(), chars.next(), chars.next()) {
            let rank =
                Rank::try_from(rank).map_err(|incorrect_char| ParseCardError::InvalidRank {
                    original_input: value.to_string(),
                    incorrect_char,
                })?;
            let suit =
                Suit::try_from(suit).map_err(|incorrect_char| ParseCardError::InvalidSuit {
                    original_input: value.to_string(),
                    incorrect_char,
                })?;
            Ok(Self::new(rank, suit))
        } else {
            Err(ParseCardError::InvalidLength {
                original_input: value.to_string(),
            })
        }
    }
}
impl PartialOrd for Card {
    fn partial_cmp(&self, other: &Self) -> Option<std::cmp::Ordering> {
        self.rank().partial_cmp(&other.rank())
    }
}
impl Ord for Card {
    fn cmp(&self, other: &Self) -> Ordering { self.rank().cmp(&other.rank()) }
}
impl fmt::Debug for Card {
    fn fmt(&self, f: &mut fmt::Formatter<'_>) -> fmt::Result {
        f.debug_struct(""Card"")
            .field(""unique_integer"", &self.unique_integer())
            .field(""rank"", &self.rank())
            .field(""suit"", &self.suit())
            .finish()
    }
}
impl fmt::Display for Card {
    fn fmt(&self, f: &mut fmt::Formatter<'_>) -> fmt::Result {
        write!(f, ""[ {}{} ]"", self.rank(), self.suit())
    }
}
#[derive(Debug, Clone)]
#[must_use = ""iterators are lazy and do nothing unless consumed""]
pub struct ParseToIter<I>(I);
impl<I: Iterator> Iterator for ParseToIter<I> {
    type Item = I::Item;
    fn next(&mut self) -> Option<Self::Item> { self.0.next() }
    fn size_hint(&self) -> (usize, Option<usize>) { self.0.size_hint() }
    fn fold<B, F>(self, init: B, f: F) -> B
    where
        Self: Sized,
        F: FnMut(B, Self::Item) -> B,
    {
        self.0.fold(init, f)
    }
}
impl<I: FusedIterator> FusedIterator for ParseToIter<I> {}
impl<I: ExactSizeIterator> ExactSizeIterator for ParseToIter<I> {
    fn len(&self) -> usize { self.0.len() }
}
impl<I: DoubleEndedIterator> DoubleEndedIterator for ParseToIter<I> {
    fn next_back(&mut self) -> Option<Self::Item> { self.0.next_back() }
}
impl<I, T, E> ParseToIter<I>
where
    I: Iterator<Item = Result<T, E>>,
{
    pub fn try_collect<C: FromIterator<T>>(self) -> Result<C, E> { self.0.collect() }
}
".

(** src/deck.rs:1-92 *)
Definition src_deck : string :=
"use itertools::Itertools;
use crate::{Card, Rank, Suit};
pub fn generate() -> impl Iterator<Item = Card> {
    Rank::ALL_VARIANTS
        .iter()
        .cartesian_product(Suit::ALL_VARIANTS.iter())
        .map(|(&rank, &suit)| Card::new(rank, suit))
}
#[cfg(feature = ""rand"")]
pub fn shuffled() -> Vec<Card> { shuffled_with(&mut rand::thread_rng()) }
#[cfg(feature = ""rand"")]
pub fn shuffled_with<R>(rng: &mut R) -> Vec<Card>
where
    R: rand::Rng + ?Sized,
{
    use rand::prelude::*;
    let mut deck = generate().collect::<Vec<_>>();
    deck.shuffle(rng);
    deck
}
".

(** src/evaluate/hand_rank.rs:1-18 *)
Definition src_evaluate_hand_rank : string :=
"use crate::evaluate::lookup_table;
#[derive(Debug, PartialEq, Eq, Hash, Copy, Clone)]
pub struct PokerHandRank(pub(crate) i16);
impl PokerHandRank {
    pub const BEST: Self = Self(1);
    pub const WORST: Self = Self(lookup_table::constants::WORST_HIGH_CARD as i16);
    pub const fn is_better_than(self, other: Self) -> bool { self.0 < other.0 }
    pub const fn is_worse_than(self, other: Self) -> bool { self.0 > other.0 }
}
".

(** src/evaluate/class.rs:1-138 *)
Definition src_evaluate_class : string :=
"use std::fmt;
use crate::Rank;
#[derive(Debug, Copy, Clone, PartialEq, Eq, PartialOrd, Ord)]
pub enum EvalClass {
    HighCard {
        high_rank: Rank,
    },
    Pair {
        pair: Rank,
    },
    TwoPair {
        first_pair: Rank,
        second_pair: Rank,
    },
    ThreeOfAKind {
        trips: Rank,
    },
    Straight {
        high_rank: Rank,
    },
    Flush {
        high_rank: Rank,
    },
    FullHouse {
        trips: Rank,
        pair: Rank,
    },
    FourOfAKind {
        quads: Rank,
    },
    StraightFlush {
        high_rank: Rank,
    },
}
impl fmt::Display for EvalClass {
    fn fmt(&self, f: &mut fmt::Formatter<'_>) -> fmt::Result {
        match *self {
            Self::HighCard { high_rank } => write!(f, ""High card, {}"", high_rank.as_str_name()),
            Self::Pair { pair } => write!(f, ""Pair, {}"", pair.as_str_name_plural()),
            Self::TwoPair {
                first_pair: high_pair,
                second_pair: low_pair,
                ..
            } => write!(
                f,
                ""Two pair, {} and {}"",
                high_pair.as_str_name_plural(),
                low_pair.as_str_name_plural(),
            ),
            Self::ThreeOfAKind { trips } => {
                write!(f, ""Three of a kind, {}"", trips.as_str_name_plural())
            }
            Self::Straight { high_rank } => {
                write!(f, ""Straight, {}-high"", high_rank.as_str_name())
            }
            Self::Flush { high_rank } => write!(f, ""Flush, {}-high"", high_rank.as_str_name()),
            Self::FullHouse { trips, pair } => write!(
                f,
                ""Full house, {} over {}"",
                trips.as_str_name_plural(),
                pair.as_str_name_plural()
            ),
            Self::FourOfAKind { quads, .. } => {
                write!(f, ""Four of a kind, {}"", quads.as_str_name_plural())
            }
            Self::StraightFlush { high_rank, .. } => match high_rank {
                Rank::Ace => write!(f, ""Royal flush""),
                high_rank => write!(f, ""Straight flush, {}-high"", high_rank.as_str_name()),
            },
        }
    }
}
".

(** src/evaluate/meta.rs:1-170 *)
Definition src_evaluate_meta : string :=
"use std::{cmp::Ordering, fmt, hash::Hash};
use crate::{
    card::rank::Rank,
    evaluate::{class::EvalClass, hand_rank::PokerHandRank},
};
#[derive(Debug, Copy, Clone)]
pub enum Meta {
    HighCard {
        hand_rank: PokerHandRank,
        high_rank: Rank,
    },
    Pair {
        hand_rank: PokerHandRank,
        pair: Rank,
    },
    TwoPair {
        hand_rank: PokerHandRank,
        high_pair: Rank,
        low_pair: Rank,
    },
    ThreeOfAKind {
        hand_rank: PokerHandRank,
        trips: Rank,
    },
    Straight {
        hand_rank: PokerHandRank,
        high_rank: Rank,
    },
    Flush {
        hand_rank: PokerHandRank,
        high_rank: Rank,
    },
    FullHouse {
        hand_rank: PokerHandRank,
        trips: Rank,
        pair: Rank,
    },
    FourOfAKind {
        hand_rank: PokerHandRank,
        quads: Rank,
    },
    StraightFlush {
        hand_rank: PokerHandRank,
        high_rank: Rank,
    },
}
impl Meta {
    pub const BEST: Self = Self::StraightFlush {
        high_rank: Rank::Ace,
        hand_rank: PokerHandRank::BEST,
    };
    pub const WORST: Self = Self::HighCard {
        high_rank: Rank::Seven,
        hand_rank: PokerHandRank::WORST,
    };
    pub(crate) const fn hand_rank(self) -> PokerHandRank {
        match self {
            Self::HighCard { hand_rank, .. }
            | Self::Pair { hand_rank, .. }
            | Self::TwoPair { hand_rank, .. }
            | Self::ThreeOfAKind { hand_rank, .. }
            | Self::Straight { hand_rank, .. }
            | Self::Flush { hand_rank, .. }
            | Self::FullHouse { hand_rank, .. }
            | Self::FourOfAKind { hand_rank, .. }
            | Self::StraightFlush { hand_rank, .. } => hand_rank,
        }
    }
    pub const fn class(self) -> EvalClass {
        match self {
            Self::HighCard { high_rank, .. } => EvalClass::HighCard { high_rank },
            Self::Pair { pair, .. } => EvalClass::Pair { pair },
            Self::TwoPair {
                high_pair,
                low_pair,
                ..
            } => EvalClass::TwoPair {
                first_pair: high_pair,
                second_pair: low_pair,
            },
            Self::ThreeOfAKind { trips, .. } => EvalClass::ThreeOfAKind { trips },
            Self::Straight { high_rank, .. } => EvalClass::Straight { high_rank },
            Self::Flush { high_rank, .. } => EvalClass::Flush { high_rank },
            Self::FullHouse { trips, pair, .. } => EvalClass::FullHouse { trips, pair },
            Self::FourOfAKind { quads, .. } => EvalClass::FourOfAKind { quads },
            Self::StraightFlush { high_rank, .. } => EvalClass::StraightFlush { high_rank },
        }
    }
    pub const fn is_high_card(self) -> bool { matches!(self, Self::HighCard { .. }) }
    pub const fn is_pair(self) -> bool { matches!(self, Self::Pair { .. }) }
    pub const fn is_two_pair(self) -> bool { matches!(self, Self::TwoPair { .. }) }
    pub const fn is_three_of_a_kind(self) -> bool { matches!(self, Self::ThreeOfAKind { .. }) }
    pub const fn is_straight(self) -> bool { matches!(self, Self::Straight { .. }) }
    pub const fn is_flush(self) -> bool { matches!(self, Self::Flush { .. }) }
    pub const fn is_full_house(self) -> bool { matches!(self, Self::FullHouse { .. }) }
    pub const fn is_four_of_a_kind(self) -> bool { matches!(self, Self::FourOfAKind { .. }) }
    pub const fn is_straight_flush(self) -> bool { matches!(self, Self::StraightFlush { .. }) }
    pub const fn is_royal_flush(self) -> bool {
        matches!(
            self,
            Self::StraightFlush {
                hand_rank: PokerHandRank::BEST,
                ..
            }
        )
    }
}
impl PartialEq for Meta {
    fn eq(&self, other: &Self) -> bool { self.hand_rank() == other.hand_rank() }
}
impl Eq for Meta {}
impl PartialOrd for Meta {
    fn partial_cmp(&self, other: &Self) -> Option<Ordering> {
        let hand_rank_self = self.hand_rank();
        let hand_rank_other = other.hand_rank();
        if hand_rank_self.is_better_than(hand_rank_other) {
            Some(Ordering::Greater)
        } else if hand_rank_self == hand_rank_other {
            Some(Ordering::Equal)
        } else {
            Some(Ordering::Less)
        }
    }
}
impl Ord for Meta {
    fn cmp(&self, other: &Self) -> Ordering {
        let hand_rank_self = self.hand_rank();
        let hand_rank_other = other.hand_rank();
        if hand_rank_self.is_better_than(hand_rank_other) {
            Ordering::Greater
        } else if hand_rank_self == hand_rank_other {
            Ordering::Equal
        } else {
            Ordering::Less
        }
    }
}
impl Hash for Meta {
    fn hash<H: std::hash::Hasher>(&self, state: &mut H) { self.hand_rank().hash(state); }
}
impl fmt::Display for Meta {
    fn fmt(&self, f: &mut fmt::Formatter<'_>) -> fmt::Result { self.class().fmt(f) }
}
".

(** src/evaluate/eval.rs:1-182 *)
Definition src_evaluate_eval : string :=
"use std::fmt;
use crate::{
    evaluate::{hand_rank::PokerHandRank, meta::Meta},
    EvalClass,
};
#[derive(Debug, Copy, Clone, PartialOrd, Ord, PartialEq, Eq, Hash)]
pub struct Eval(pub(crate) Meta);
impl Eval {
    pub const BEST: Self = Self(Meta::BEST);
    pub const WORST: Self = Self(Meta::WORST);
    pub(crate) const fn hand_rank(self) -> PokerHandRank { self.0.hand_rank() }
    pub const fn class(self) -> EvalClass { self.0.class() }
    pub const fn is_better_than(self, other: Self) -> bool {
        self.hand_rank().is_better_than(other.hand_rank())
    }
    pub const fn is_worse_than(self, other: Self) -> bool {
        self.hand_rank().is_worse_than(other.hand_rank())
    }
    pub const fn is_equal_to(self, other: Self) -> bool {
        self.hand_rank().0 == other.hand_rank().0
    }
    pub const fn is_high_card(self) -> bool { self.0.is_high_card() }
    pub const fn is_pair(self) -> bool { self.0.is_pair() }
    pub const fn is_two_pair(self) -> bool { self.0.is_two_pair() }
    pub const fn is_three_of_a_kind(self) -> bool { self.0.is_three_of_a_kind() }
    pub const fn is_straight(self) -> bool { self.0.is_straight() }
    pub const fn is_flush(self) -> bool { self.0.is_flush() }
    pub const fn is_full_house(self) -> bool { self.0.is_full_house() }
    pub const fn is_four_of_a_kind(self) -> bool { self.0.is_four_of_a_kind() }
    pub const fn is_straight_flush(self) -> bool { self.0.is_straight_flush() }
    pub const fn is_royal_flush(self) -> bool { self.0.is_royal_flush() }
}
impl fmt::Display for Eval {
    fn fmt(&self, f: &mut fmt::Formatter<'_>) -> fmt::Result { self.0.fmt(f) }
}
".

(** src/evaluate/utils.rs:1-212 *)
Definition src_evaluate_utils : string :=
"use std::array;
use crate::{
    card::{rank::Rank, Card},
    constants::{INT_RANKS, PRIMES},
    evaluate::lookup_table,
    Suit,
};
#[derive(Debug, Clone, Copy)]
struct Combinations<'a, T, const N: usize> {
    data: &'a [T],
    indices: [usize; N],
    done: bool,
}
impl<'a, T, const N: usize> Combinations<'a, T, N> {
    fn new(data: &'a [T]) -> Self {
        let indices = array::from_fn(|index| index);
        Self {
            data,
            indices,
            done: false,
        }
    }
}
impl<'a, T: Copy, const N: usize> Iterator for Combinations<'a, T, N> {
    type Item = [T; N];
    fn next(&mut self) -> Option<Self::Item> {
        if self.done {
            return None;
        }
        let result = self.indices.map(|i| self.data[i]);
        for i in (0..N).rev() {
            if i == 0 && self.indices[i] == self.data.len() - N + i {
                self.done = true;
            }
            if self.indices[i] < self.data.len() - N + i {
                self.indices[i] += 1;
                for j in i + 1..N {
                    self.indices[j] = self.indices[j - 1] + 1;
                }
                break;
            }
        }
        Some(result)
    }
}
#[derive(Debug, Clone, Copy)]
pub struct BitSequence {
    bits: i16,
    t: i16,
    next_bits: i16,
}
impl BitSequence {
    pub const fn new(bits: i16) -> Self {
        Self {
            bits,
            t: 0,
            next_bits: 0,
        }
    }
    pub fn get_next(&mut self) -> i16 {
        self.t = self.bits | self.bits.wrapping_sub(1);
        self.next_bits = self.t.wrapping_add(1);
        self.next_bits |= ((!self.t & (!self.t).wrapping_neg()).wrapping_sub(1))
            >> self.bits.trailing_zeros().wrapping_add(1);
        self.bits = self.next_bits;
        self.next_bits
    }
}
pub fn const_combos<T, const N: usize>(items: &[T]) -> impl Iterator<Item = [T; N]> + '_
where
    T: Copy,
{
    Combinations::new(items)
}
pub fn prime_product_from_rank_bits(rank_bits: i16) -> i32 {
    let mut product: i32 = 1;
    for i in INT_RANKS {
        if rank_bits & (1 << i) != 0 {
            product = product.wrapping_mul(PRIMES[i as usize]);
        }
    }
    product
}
pub fn prime_product_from_hand(hand: [Card; 5]) -> i32 {
    hand.into_iter()
        .map(|card| card.unique_integer() & 0xFF)
        .fold(1, |acc, x| acc.wrapping_mul(x))
}
pub fn high_rank_from_rank_bits(rank_bits: i16) -> Rank {
    if rank_bits == lookup_table::constants::STRAIGHTS[9] {
        return Rank::Five;
    }
    for i in INT_RANKS.rev() {
        if rank_bits & (1 << i) != 0 {
            return Rank::ALL_VARIANTS[i as usize];
        }
    }
    unreachable!();
}
pub fn all_unique(hand: &[Card]) -> bool {
    let mut card_flags = 0u64;
    for &card in hand {
        let card_flag = 1u64 << card_to_index(card);
        if card_flags & card_flag != 0 {
            return false;
        }
        card_flags |= card_flag;
    }
    true
}
fn card_to_index(card: Card) -> u8 {
    let suit_shift = match card.suit() {
        Suit::Clubs => 0,
        Suit::Diamonds => 13,
        Suit::Hearts => 26,
        Suit::Spades => 39,
    };
    let rank_shift = match card.rank() {
        Rank::Two => 0,
        Rank::Three => 1,
        Rank::Four => 2,
        Rank::Five => 3,
        Rank::Six => 4,
        Rank::Seven => 5,
        Rank::Eight => 6,
        Rank::Nine => 7,
        Rank::Ten => 8,
        Rank::Jack => 9,
        Rank::Queen => 10,
        Rank::King => 11,
        Rank::Ace => 12,
    };
    suit_shift + rank_shift
}
".

(** src/evaluate/lookup_table.rs:1-378 *)
Definition src_evaluate_lookup_table : string :=
"use rustc_hash::{FxBuildHasher, FxHashMap};
use self::constants::*;
use crate::{
    card::rank::Rank,
    constants::{INT_RANKS, PRIMES},
    evaluate::{hand_rank::PokerHandRank, meta::Meta, utils},
};
#[derive(Debug, Clone, Default, PartialEq, Eq)]
pub struct LookupTable {
    pub flush_lookup: FxHashMap<i32, Meta>,
    pub unsuited_lookup: FxHashMap<i32, Meta>,
}
impl LookupTable {
    pub fn new() -> Self {
        let mut table = Self {
            flush_lookup: FxHashMap::with_capacity_and_hasher(6175, FxBuildHasher),
            unsuited_lookup: FxHashMap::with_capacity_and_hasher(1287, FxBuildHasher),
        };
        table.flushes_straights_high_cards();
        table.multiples();
        table
    }
    fn flushes_straights_high_cards(&mut self) {
        let mut not_straights = Vec::with_capacity(1277);
        let mut gen = utils::BitSequence::new(0b11111);
        for _ in 0..1286 {
            let bits = gen.get_next();
            let mut not_straight = true;
            for straight in STRAIGHTS {
                if bits ^ straight == 0 {
                    not_straight = false;
                    break;
                }
            }
            if not_straight {
                not_straights.push(bits);
            }
        }
        let mut rank_suited = 1;
        let mut rank_unsuited = WORST_FLUSH + 1;
        let mut high_rank;
        let mut prime_product;
        for straight in STRAIGHTS {
            prime_product = utils::prime_product_from_rank_bits(straight);
            high_rank = utils::high_rank_from_rank_bits(straight);
            self.flush_lookup.insert(
                prime_product,
                Meta::StraightFlush {
                    hand_rank: PokerHandRank(rank_suited),
                    high_rank,
                },
            );
            self.unsuited_lookup.insert(
                prime_product,
                Meta::Straight {
                    hand_rank: PokerHandRank(rank_unsuited),
                    high_rank,
                },
            );
            rank_suited = rank_suited.wrapping_add(1);
            rank_unsuited = rank_unsuited.wrapping_add(1);
        }
        rank_suited = WORST_FULL_HOUSE.wrapping_add(1);
        rank_unsuited = WORST_PAIR.wrapping_add(1);
        for bits in not_straights.into_iter().rev() {
            prime_product = utils::prime_product_from_rank_bits(bits);
            high_rank = utils::high_rank_from_rank_bits(bits);
            self.flush_lookup.insert(
                prime_product,
                Meta::Flush {
                    hand_rank: PokerHandRank(rank_suited),
                    high_rank,
                },
            );
            self.unsuited_lookup.insert(
                prime_product,
                Meta::HighCard {
                    hand_rank: PokerHandRank(rank_unsuited),
                    high_rank,
                },
            );
            rank_suited = rank_suited.wrapping_add(1);
            rank_unsuited = rank_unsuited.wrapping_add(1);
        }
    }
    fn multiples(&mut self) {
        let mut product;
        let mut rank = WORST_STRAIGHT_FLUSH.wrapping_add(1);
        for quad in INT_RANKS.rev() {
            let kickers = INT_RANKS.rev().filter(|&kicker| kicker != quad);
            for k in kickers {
                product = PRIMES[quad as usize].wrapping_pow(4) // 4x the quad card
                    .wrapping_mul(PRIMES[k as usize]); // 1x the kicker
                self.unsuited_lookup.insert(
                    product,
                    Meta::FourOfAKind {
                        hand_rank: PokerHandRank(rank),
                        quads: Rank::ALL_VARIANTS[quad as usize],
                    },
                );
                rank = rank.wrapping_add(1);
            }
        }
        rank = WORST_FOUR_OF_A_KIND.wrapping_add(1);
        for trips in INT_RANKS.rev() {
            let pair_ranks = INT_RANKS.rev().filter(|&pr| pr != trips);
            for pr in pair_ranks {
                product = PRIMES[trips as usize].wrapping_pow(3) // 3x trips
                    .wrapping_mul(PRIMES[pr as usize].wrapping_pow(2)); // 2x pair
                self.unsuited_lookup.insert(
                    product,
                    Meta::FullHouse {
                        hand_rank: PokerHandRank(rank),
                        pair: Rank::ALL_VARIANTS[pr as usize],
                        trips: Rank::ALL_VARIANTS[trips as usize],
                    },
                );
                rank = rank.wrapping_add(1);
            }
        }
        rank = WORST_STRAIGHT.wrapping_add(1);
        for trips in INT_RANKS.rev() {
            let kickers = INT_RANKS
                .rev()
                .filter(|&kicker| kicker != trips)
                .collect::<Vec<_>>();
            let gen = utils::const_combos::<_, 2>(&kickers);
            for k in gen {
                let c1 = k[0] as usize;
                let c2 = k[1] as usize;
                product = PRIMES[trips as usize].wrapping_pow(3) // 3x trips
                    .wrapping_mul(PRIMES[c1]) // 1x first kicker
                    .wrapping_mul(PRIMES[c2]); // 1x second kicker
                self.unsuited_lookup.insert(
                    product,
                    Meta::ThreeOfAKind {
                        hand_rank: PokerHandRank(rank),
                        trips: Rank::ALL_VARIANTS[trips as usize],
                    },
                );
                rank = rank.wrapping_add(1);
            }
        }
        rank = WORST_THREE_OF_A_KIND.wrapping_add(1);
        let bw = INT_RANKS.rev().collect::<Vec<_>>();
        let two_pairs_combos = utils::const_combos::<_, 2>(&bw);
        for [pair1, pair2] in two_pairs_combos {
            let kickers = INT_RANKS
                .rev()
                .filter(|&kicker| kicker != pair1 && kicker != pair2);
            for kicker in kickers {
                product = PRIMES[pair1 as usize].wrapping_pow(2) // 2x first pair
                    .wrapping_mul(PRIMES[pair2 as usize].wrapping_pow(2)) // 2x second pair
                    .wrapping_mul(PRIMES[kicker as usize]); // 1x kicker
                self.unsuited_lookup.insert(
                    product,
                    Meta::TwoPair {
                        hand_rank: PokerHandRank(rank),
                        high_pair: Rank::ALL_VARIANTS[pair1 as usize],
                        low_pair: Rank::ALL_VARIANTS[pair2 as usize],
                    },
                );
                rank = rank.wrapping_add(1);
            }
        }
        rank = WORST_TWO_PAIR.wrapping_add(1);
        for pair_rank in INT_RANKS.rev() {
            let kickers = INT_RANKS
                .rev()
                .filter(|&kicker| kicker != pair_rank)
                .collect::<Vec<_>>();
            let kicker_combos = utils::const_combos::<_, 3>(&kickers);
            for kicker_combo in kicker_combos {
                let k1 = kicker_combo[0] as usize;
                let k2 = kicker_combo[1] as usize;
                let k3 = kicker_combo[2] as usize;
                product = PRIMES[pair_rank as usize].wrapping_pow(2) // 2x pair
                    .wrapping_mul(PRIMES[k1]) // 1x first kicker
                    .wrapping_mul(PRIMES[k2]) // 1x second kicker
                    .wrapping_mul(PRIMES[k3]); // 1x third kicker
                self.unsuited_lookup.insert(
                    product,
                    Meta::Pair {
                        hand_rank: PokerHandRank(rank),
                        pair: Rank::ALL_VARIANTS[pair_rank as usize],
                    },
                );
                rank = rank.wrapping_add(1);
            }
        }
    }
}
pub mod constants {
    pub const WORST_STRAIGHT_FLUSH: i16 = 10;
    pub const WORST_FOUR_OF_A_KIND: i16 = 166;
    pub const WORST_FULL_HOUSE: i16 = 322;
    pub const WORST_FLUSH: i16 = 1599;
    pub const WORST_STRAIGHT: i16 = 1609;
    pub const WORST_THREE_OF_A_KIND: i16 = 2467;
    pub const WORST_TWO_PAIR: i16 = 3325;
    pub const WORST_PAIR: i16 = 6185;
    pub const WORST_HIGH_CARD: i16 = 7462;
    pub const STRAIGHTS: [i16; 10] = [
        0b1_1111_0000_0000, // 7936 => TJQKA
        0b0_1111_1000_0000, // 3968 => 9TJQK
        0b0_0111_1100_0000, // 1984 => 89TJQ
        0b0_0011_1110_0000, // 992 => 789TJ
        0b0_0001_1111_0000, // 496 => 6789T
        0b0_0000_1111_1000, // 248 => 56789
        0b0_0000_0111_1100, // 124 => 45678
        0b0_0000_0011_1110, // 62 => 34567
        0b0_0000_0001_1111, // 31 => 23456
        0b1_0000_0000_1111, // 4111 => A2345
    ];
}
".

(** src/evaluate/evaluation.rs:1-65 *)
Definition src_evaluate_evaluation : string :=
"use std::ops::Index;
use rustc_hash::FxHashMap;
use crate::{
    evaluate::{meta::Meta, utils},
    Card, Eval, EvalError,
};
pub trait Evaluation {
    type Lookup: for<'a> Index<&'a i32, Output = Meta>;
    fn flush_lookup(&self) -> &Self::Lookup;
    fn unsuited_lookup(&self) -> &Self::Lookup;
}
impl Evaluation for super::Evaluator {
    type Lookup = FxHashMap<i32, Meta>;
    fn flush_lookup(&self) -> &Self::Lookup { &self.0.flush_lookup }
    fn unsuited_lookup(&self) -> &Self::Lookup { &self.0.unsuited_lookup }
}
pub fn evaluate(evaluator: &impl Evaluation, cards: &[Card]) -> Result<Eval, EvalError> {
    if utils::all_unique(cards) {
        match cards.len() {
            x if x < 5 => Err(EvalError::InvalidHandSize(x)),
            5 => {
                let cards_array = [cards[0], cards[1], cards[2], cards[3], cards[4]];
                Ok(five(evaluator, cards_array))
            }
            _ => Ok(six_plus(evaluator, cards)),
        }
    } else {
        Err(EvalError::CardsNotUnique(cards.to_vec()))
    }
}
fn five(evaluator: &impl Evaluation, cards: [Card; 5]) -> Eval {
    let uniques = cards.map(Card::unique_integer);
    let detect_flush = uniques.into_iter().fold(0xF000, |acc, x| acc & x) != 0;
    if detect_flush {
        let bit_rank_or = uniques.into_iter().fold(0, |acc, x| acc | x) >> 16;
        let prime = utils::prime_product_from_rank_bits(bit_rank_or as i16);
        Eval(evaluator.flush_lookup()[&prime])
    } else {
        let prime = utils::prime_product_from_hand(cards);
        Eval(evaluator.unsuited_lookup()[&prime])
    }
}
fn six_plus(evaluator: &impl Evaluation, cards: &[Card]) -> Eval {
    debug_assert!(cards.len() > 5);
    let mut current_max = Eval::WORST;
    let all_five_card_combos = utils::const_combos::<_, 5>(cards);
    for combo in all_five_card_combos {
        let score = five(evaluator, combo);
        if score > current_max {
            current_max = score;
        }
    }
    current_max
}
".

(** src/evaluate/mod.rs:1-309 *)
Definition src_evaluate_mod : string :=
"#[macro_use]
mod evaluation;
mod class;
mod eval;
mod hand_rank;
#[doc(hidden)]
pub mod lookup_table;
mod meta;
#[cfg(feature = ""static_lookup"")]
pub mod static_lookup;
mod utils;
#[doc(inline)]
pub use class::EvalClass;
#[doc(inline)]
pub use eval::Eval;
use crate::{card::Card, error::EvalError, evaluate::lookup_table::LookupTable};
#[derive(Clone, Debug, PartialEq, Eq, Default)]
pub struct Evaluator(LookupTable);
impl Evaluator {
    pub fn new() -> Self { Self(LookupTable::new()) }
    pub fn evaluate<C: AsRef<[Card]>>(&self, cards: C) -> Result<Eval, EvalError> {
        let cards = cards.as_ref();
        evaluation::evaluate(self, cards)
    }
}
".
