rocq/Makefile
rocq/Makefile.conf
rocq/.Makefile.d
rocq/.lia.cache
rocq/.nia.cache
rocq/.nra.cache
*.vo
*.vos
*.vok
*.glob
*.aux
.lia.cache
.nia.cache
.nra.cache
