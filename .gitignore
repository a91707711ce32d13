rocq/.lia.cache
